(** * Props_Derived: property C104.
    [==] on structures and results compares what the guest sees; defaults are all zero bytes. *)
From Verif Require Import Base Base_proofs Io Mem SpecMem SpecFile File_proofs Text Cmdline Layout SpecAbi Layout_proofs Props_Bytes
  Loader Elf SpecElf BzImage SpecBz Bz_proofs Pe SpecPe BootParams Configurators SpecVmm Demo_elf Props_Elf Props_Bz Props_Pe Derived.
Local Open Scope list_scope.

(** No two fields of a structure, or of a structure inside it, have the same name. *)
Fixpoint names_ok (t : ty) : bool :=
  match t with
  | Arr _ t => names_ok t
  | Struct _ fs =>
      names_unique (map fst fs) && (fix go (fs : list (string * ty)) : bool :=
        match fs with [] => true | (_, t) :: r => names_ok t && go r end) fs
  | _ => true
  end.

Fixpoint eq_fields (p : bool) (o : N) (fs : list (string * ty)) (a b : bytes) : bool :=
  match fs with
  | [] => true
  | (_, t') :: r =>
      derived_eq t' (slice a (place p o t') (size t')) (slice b (place p o t') (size t')) &&
      eq_fields p (place p o t' + size t') r a b
  end.
Lemma derived_eq_struct p fs a b : derived_eq (Struct p fs) a b = eq_fields p 0 fs a b.
Proof.
  cbn [derived_eq]. generalize 0 as o. induction fs as [|[n t] fs IH]; intros o; [reflexivity|].
  cbn [eq_fields]. rewrite IH. reflexivity.
Qed.

Lemma get_nil t bs : get t [] bs = le_dec (slice bs 0 (size t)).
Proof. reflexivity. Qed.
Lemma get_sub t s r fo tf bs : lenN bs = size t ->
  (forall o t', locate tf r = Some (o, t') -> locate t (s :: r) = Some (fo + o, t')) ->
  (locate tf r = None -> locate t (s :: r) = None) -> fo + size tf <= size t ->
  get t (s :: r) bs = get tf r (slice bs fo (size tf)).
Proof.
  intros L H1 H2 B. unfold get. destruct (locate tf r) as [[o t']|] eqn:E.
  - rewrite (H1 o t' eq_refl). pose proof (locate_bounds _ _ _ _ E). rewrite slice_slice by lia. reflexivity.
  - rewrite H2 by reflexivity. reflexivity.
Qed.
Lemma get_field p fs n r fo tf bs : lenN bs = size (Struct p fs) -> find_field p 0 fs n = Some (fo, tf) ->
  get (Struct p fs) (Fld n :: r) bs = get tf r (slice bs fo (size tf)).
Proof.
  intros L F. apply get_sub; [exact L| | |].
  - intros o t' H. cbn [locate]. rewrite F, H. reflexivity.
  - intros H. cbn [locate]. rewrite F, H. reflexivity.
  - pose proof (find_field_bounds _ _ _ _ _ _ F). pose proof (size_struct_ge p fs). lia.
Qed.
Lemma get_elem n t i r bs : lenN bs = size (Arr n t) -> i < n ->
  get (Arr n t) (Idx i :: r) bs = get t r (slice bs (i * size t) (size t)).
Proof.
  intros L F. apply get_sub; [exact L| | |].
  - intros o t' H. cbn [locate]. rewrite (proj2 (N.ltb_lt _ _) F), H. reflexivity.
  - intros H. cbn [locate]. rewrite (proj2 (N.ltb_lt _ _) F), H. reflexivity.
  - cbn [size]. nia.
Qed.

Definition same_fields (t : ty) (a b : bytes) : Prop :=
  forall path o t', locate t path = Some (o, t') -> int_type t' -> get t path a = get t path b.

Lemma len_sub (bs : bytes) o n k : lenN bs = k -> o + n <= k -> lenN (slice bs o n) = n.
Proof. intros L H. rewrite lenN_slice. lia. Qed.

Lemma eq_fields_found p fs n a b : forall o fo tf, find_field p o fs n = Some (fo, tf) -> eq_fields p o fs a b = true ->
  derived_eq tf (slice a fo (size tf)) (slice b fo (size tf)) = true.
Proof.
  induction fs as [|[n0 t0] fs IH]; intros o fo tf F H; cbn [find_field eq_fields] in *; [discriminate|].
  apply andb_true_iff in H as [H1 H2]. destruct (String.eqb n0 n).
  - injection F as <- <-. exact H1.
  - eapply IH; eassumption.
Qed.

Lemma in_indices n i : In i (map N.of_nat (seq 0 (N.to_nat n))) <-> i < n.
Proof.
  rewrite in_map_iff. split.
  - intros (k & <- & Hk). apply in_seq in Hk. lia.
  - intros H. exists (N.to_nat i). split; [lia|]. apply in_seq. lia.
Qed.

Lemma eq_same t : forall a b, lenN a = size t -> lenN b = size t -> derived_eq t a b = true -> same_fields t a b.
Proof.
  induction t as [ | | | |n t IH|p fs IH] using ty_induct; intros a b La Lb H.
  1-4: intros path o t' Hl Ht; assert (path = []) as -> by (eapply int_no_path; [|exact Hl]; unfold int_type; auto);
    rewrite !get_nil; cbn [derived_eq] in H; apply N.eqb_eq in H; rewrite <- La at 1; rewrite <- Lb; rewrite !slice_full; exact H.
  - intros path o t' Hl Ht. cbn [derived_eq] in H. destruct path as [|[f|i] path].
    + cbn in Hl. injection Hl as <- <-. destruct Ht as [Ht|[Ht|[Ht|Ht]]]; discriminate Ht.
    + discriminate Hl.
    + cbn [locate] in Hl. destruct (N.ltb_spec i n) as [Hi|]; [|discriminate].
      destruct (locate t path) as [[o1 t1]|] eqn:E; [|discriminate]. injection Hl as <- <-.
      rewrite !get_elem by assumption. rewrite forallb_forall in H.
      assert (Hb : i * size t + size t <= size (Arr n t)) by (cbn [size]; nia).
      eapply IH; [eapply len_sub; eassumption|eapply len_sub; eassumption| |exact E|exact Ht].
      apply H. apply in_indices. exact Hi.
  - intros path o t' Hl Ht. rewrite derived_eq_struct in H. destruct path as [|[f|i] path].
    + cbn in Hl. injection Hl as <- <-. destruct Ht as [Ht|[Ht|[Ht|Ht]]]; discriminate Ht.
    + cbn [locate] in Hl. destruct (find_field p 0 fs f) as [[fo tf]|] eqn:F; [|discriminate].
      destruct (locate tf path) as [[o1 t1]|] eqn:E; [|discriminate]. injection Hl as <- <-.
      rewrite !(get_field p fs f path fo tf) by assumption.
      assert (Hb : fo + size tf <= size (Struct p fs)).
      { pose proof (find_field_bounds _ _ _ _ _ _ F). pose proof (size_struct_ge p fs). lia. }
      assert (Hin : exists nm, In (nm, tf) fs).
      { clear - F. revert F. generalize 0 as o. induction fs as [|[n0 t0] fs IHf]; intros o F; cbn [find_field] in F; [discriminate|].
        destruct (String.eqb n0 f).
        - injection F as _ <-. exists n0. left. reflexivity.
        - destruct (IHf _ F) as (nm & Hn). exists nm. right. exact Hn. }
      destruct Hin as (nm & Hin). pose proof (proj1 (Forall_forall _ _) IH _ Hin) as IHt. cbn [snd] in IHt.
      eapply IHt; [eapply len_sub; eassumption|eapply len_sub; eassumption| |exact E|exact Ht].
      eapply eq_fields_found; eassumption.
    + discriminate Hl.
Qed.

Lemma same_eq t : names_ok t = true -> forall a b, lenN a = size t -> lenN b = size t -> same_fields t a b -> derived_eq t a b = true.
Proof.
  induction t as [ | | | |n t IH|p fs IH] using ty_induct; intros Nm a b La Lb H.
  1-4: cbn [derived_eq]; apply N.eqb_eq; specialize (H [] 0 _ eq_refl ltac:(unfold int_type; auto)); rewrite !get_nil in H;
    rewrite <- La in H at 1; rewrite <- Lb in H; rewrite !slice_full in H; exact H.
  - cbn [derived_eq names_ok] in *. apply forallb_forall. intros i Hi. apply in_indices in Hi.
    assert (Hb : i * size t + size t <= size (Arr n t)) by (cbn [size]; nia).
    apply IH; [exact Nm|eapply len_sub; eassumption|eapply len_sub; eassumption|].
    intros path o t' Hl Ht. rewrite <- !(get_elem n t i path) by assumption.
    eapply H; [|exact Ht]. cbn [locate]. rewrite (proj2 (N.ltb_lt _ _) Hi), Hl. reflexivity.
  - rewrite derived_eq_struct. cbn [names_ok] in Nm. apply andb_true_iff in Nm as [Nu Nr].
    assert (K : forall n fo tf, find_field p 0 fs n = Some (fo, tf) -> In (n, tf) fs -> names_ok tf = true ->
      derived_eq tf (slice a fo (size tf)) (slice b fo (size tf)) = true).
    { intros n fo tf F Hin Nt. pose proof (proj1 (Forall_forall _ _) IH _ Hin) as IHt. cbn [snd] in IHt.
      assert (Hb : fo + size tf <= size (Struct p fs)).
      { pose proof (find_field_bounds _ _ _ _ _ _ F). pose proof (size_struct_ge p fs). lia. }
      apply IHt; [exact Nt|eapply len_sub; eassumption|eapply len_sub; eassumption|].
      intros path o t' Hl Ht. rewrite <- !(get_field p fs n path fo tf) by assumption.
      eapply H; [|exact Ht]. cbn [locate]. rewrite F, Hl. reflexivity. }
    clear IH H La Lb.
    assert (G : forall l o, (forall n fo tf, find_field p o l n = Some (fo, tf) -> In (n, tf) l -> names_ok tf = true ->
        derived_eq tf (slice a fo (size tf)) (slice b fo (size tf)) = true) ->
      names_unique (map fst l) = true ->
      (fix go (fs : list (string * ty)) : bool := match fs with [] => true | (_, t) :: r => names_ok t && go r end) l = true ->
      eq_fields p o l a b = true).
    { clear. induction l as [|[n0 t0] l IHl]; intros o K Nu Nr; [reflexivity|]. cbn [eq_fields map fst names_unique] in *.
      apply andb_true_iff in Nu as [N1 N2]. apply andb_true_iff in Nr as [R1 R2]. apply andb_true_iff. split.
      - apply (K n0); [cbn [find_field]; rewrite String.eqb_refl; reflexivity|left; reflexivity|exact R1].
      - apply IHl; [|exact N2|exact R2]. intros n fo tf F Hin Nt. apply (K n); [|right; exact Hin|exact Nt].
        apply find_later; [|exact F]. intros <-. apply negb_true_iff in N1. apply find_in in F.
        assert (existsb (String.eqb n0) (map fst l) = true); [|congruence].
        apply existsb_exists. exists n0. split; [exact F|apply String.eqb_refl]. }
    exact (G fs 0 K Nu Nr).
Qed.

(** ** Defaults *)
Fixpoint fill_fields (p : bool) (o : N) (fs : list (string * ty)) (acc : bytes) : bytes :=
  match fs with
  | [] => acc
  | (_, t') :: r =>
      fill_fields p (place p o t' + size t') r
        (patch acc (place p o t') (default_over t' (slice acc (place p o t') (size t'))))
  end.
Lemma default_struct p fs g : default_over (Struct p fs) g = fill_fields p 0 fs g.
Proof.
  cbn [default_over]. generalize 0 as o. revert g. induction fs as [|[n t] fs IH]; intros g o; [reflexivity|].
  cbn [fill_fields]. rewrite IH. reflexivity.
Qed.

Lemma fill_fields_facts p fs (Hl : Forall (fun f => forall g, lenN g = size (snd f) -> lenN (default_over (snd f) g) = size (snd f)) fs) :
  forall o acc, fields_end p o fs <= lenN acc ->
  lenN (fill_fields p o fs acc) = lenN acc /\
  (forall x n, x + n <= o -> slice (fill_fields p o fs acc) x n = slice acc x n) /\
  (forall f fo tf, find_field p o fs f = Some (fo, tf) ->
     exists g, lenN g = size tf /\ slice (fill_fields p o fs acc) fo (size tf) = default_over tf g).
Proof.
  induction Hl as [|[n0 t0] fs H0 Hl IH]; intros o acc B; cbn [fill_fields fields_end snd] in *.
  - split; [reflexivity|]. split; [reflexivity|]. intros f fo tf F. discriminate F.
  - pose proof (place_ge p o t0) as Pg. pose proof (fields_end_ge p fs (place p o t0 + size t0)) as Fg.
    set (g0 := slice acc (place p o t0) (size t0)) in *.
    assert (Lg : lenN g0 = size t0) by (unfold g0; rewrite lenN_slice; lia).
    specialize (H0 g0 Lg).
    assert (Lp : lenN (patch acc (place p o t0) (default_over t0 g0)) = lenN acc) by (apply lenN_patch; lia).
    destruct (IH (place p o t0 + size t0) (patch acc (place p o t0) (default_over t0 g0)) ltac:(lia)) as (I1 & I2 & I3).
    split; [lia|]. split.
    + intros x n Hx. rewrite I2 by lia. apply slice_patch_out; lia.
    + intros f fo tf F. cbn [find_field] in F. destruct (String.eqb n0 f).
      * injection F as <- <-. exists g0. split; [exact Lg|]. rewrite I2 by lia.
        pose proof (slice_patch_in acc (place p o t0) (default_over t0 g0) ltac:(lia)) as Q. rewrite H0 in Q. exact Q.
      * apply (I3 f). exact F.
Qed.

Definition fill_elems (t : ty) (is : list N) (g : bytes) : bytes :=
  fold_left (fun acc i => patch acc (i * size t) (default_over t (slice acc (i * size t) (size t)))) is g.
Lemma fill_elems_facts t (H0 : forall g, lenN g = size t -> lenN (default_over t g) = size t) k :
  forall s acc, N.of_nat (s + k) * size t <= lenN acc ->
  lenN (fill_elems t (map N.of_nat (seq s k)) acc) = lenN acc /\
  (forall x n, x + n <= N.of_nat s * size t -> slice (fill_elems t (map N.of_nat (seq s k)) acc) x n = slice acc x n) /\
  (forall i, (s <= i < s + k)%nat -> exists g, lenN g = size t /\
     slice (fill_elems t (map N.of_nat (seq s k)) acc) (N.of_nat i * size t) (size t) = default_over t g).
Proof.
  induction k as [|k IH]; intros s acc B; cbn [seq map].
  - split; [reflexivity|]. split; [reflexivity|]. intros i Hi. lia.
  - unfold fill_elems. cbn [fold_left].
    set (g0 := slice acc (N.of_nat s * size t) (size t)) in *.
    assert (Bs : N.of_nat s * size t + size t <= lenN acc) by nia.
    assert (Lg : lenN g0 = size t) by (unfold g0; rewrite lenN_slice; lia).
    specialize (H0 g0 Lg) as H1.
    assert (Lp : lenN (patch acc (N.of_nat s * size t) (default_over t g0)) = lenN acc) by (apply lenN_patch; lia).
    destruct (IH (S s) (patch acc (N.of_nat s * size t) (default_over t g0))) as (I1 & I2 & I3).
    { rewrite Lp. replace (S s + k)%nat with (s + S k)%nat by lia. exact B. }
    unfold fill_elems in I1, I2, I3. split; [lia|]. split.
    + intros x n Hx. rewrite I2 by lia. apply slice_patch_out; lia.
    + intros i Hi. destruct (Nat.eq_dec i s) as [->|Hn].
      * exists g0. split; [exact Lg|]. rewrite I2 by lia. pose proof (slice_patch_in acc (N.of_nat s * size t) (default_over t g0) ltac:(lia)) as Q. rewrite H1 in Q. exact Q.
      * apply I3. lia.
Qed.

Lemma lenN_zeros n : lenN (zeros n) = n.
Proof. unfold zeros, lenN. rewrite repeat_length. lia. Qed.
Lemma default_len t : forall g, lenN g = size t -> lenN (default_over t g) = size t.
Proof.
  induction t as [ | | | |n t IH|p fs IH] using ty_induct; intros g Lg; try apply lenN_zeros.
  - cbn [default_over]. rewrite <- Lg. apply (fill_elems_facts t IH (N.to_nat n) 0). cbn [size] in Lg. rewrite Lg.
    replace (N.of_nat (0 + N.to_nat n)) with n by lia. lia.
  - rewrite default_struct, <- Lg. apply (fill_fields_facts p fs IH 0 g). rewrite Lg. apply size_struct_ge.
Qed.

Lemma le_dec_zeros n : le_dec (zeros n) = 0.
Proof. unfold zeros. induction (N.to_nat n) as [|k IH]; [reflexivity|]. cbn [repeat le_dec]. rewrite IH. reflexivity. Qed.

(** Every integer field of a default value reads 0, whatever the memory held before. *)
Lemma default_zero t : forall g, lenN g = size t -> forall path o t', locate t path = Some (o, t') -> int_type t' ->
  get t path (default_over t g) = 0.
Proof.
  induction t as [ | | | |n t IH|p fs IH] using ty_induct; intros g Lg path o t' Hl Ht.
  1-4: assert (path = []) as -> by (eapply int_no_path; [|exact Hl]; unfold int_type; auto); reflexivity.
  - destruct path as [|[f|i] path].
    + cbn in Hl. injection Hl as <- <-. destruct Ht as [Ht|[Ht|[Ht|Ht]]]; discriminate Ht.
    + discriminate Hl.
    + cbn [locate] in Hl. destruct (N.ltb_spec i n) as [Hi|]; [|discriminate].
      destruct (locate t path) as [[o1 t1]|] eqn:E; [|discriminate]. injection Hl as <- <-.
      rewrite get_elem by (try assumption; apply default_len; assumption).
      destruct (proj2 (proj2 (fill_elems_facts t (default_len t) (N.to_nat n) 0 g
        ltac:(cbn [size] in Lg; rewrite Lg; replace (N.of_nat (0 + N.to_nat n)) with n by lia; lia))) (N.to_nat i) ltac:(lia)) as (g' & L' & E').
      unfold fill_elems in E'. replace (N.of_nat (N.to_nat i)) with i in E' by lia. cbn [default_over]. rewrite E'. eapply IH; eassumption.
  - destruct path as [|[f|i] path].
    + cbn in Hl. injection Hl as <- <-. destruct Ht as [Ht|[Ht|[Ht|Ht]]]; discriminate Ht.
    + pose proof (default_len (Struct p fs) g Lg) as Ld. rewrite default_struct in *.
      cbn [locate] in Hl. destruct (find_field p 0 fs f) as [[fo tf]|] eqn:F; [|discriminate].
      destruct (locate tf path) as [[o1 t1]|] eqn:E; [|discriminate]. injection Hl as <- <-.
      rewrite (get_field p fs f path fo tf) by assumption.
      assert (Hd : Forall (fun f => forall g, lenN g = size (snd f) -> lenN (default_over (snd f) g) = size (snd f)) fs)
        by (apply Forall_forall; intros x _; apply default_len).
      destruct (proj2 (proj2 (fill_fields_facts p fs Hd 0 g ltac:(rewrite Lg; apply size_struct_ge))) f fo tf F) as (g' & L' & E').
      rewrite E'.
      assert (Hin : exists nm, In (nm, tf) fs).
      { clear - F. revert F. generalize 0 as o. induction fs as [|[n0 t0] fs IHf]; intros o F; cbn [find_field] in F; [discriminate|].
        destruct (String.eqb n0 f).
        - injection F as _ <-. exists n0. left. reflexivity.
        - destruct (IHf _ F) as (nm & Hn). exists nm. right. exact Hn. }
      destruct Hin as (nm & Hin). pose proof (proj1 (Forall_forall _ _) IH _ Hin) as IHt. cbn [snd] in IHt. eapply IHt; eassumption.
    + discriminate Hl.
Qed.

Lemma solid_same t bs1 bs2 : solid t = true -> lenN bs1 = size t -> lenN bs2 = size t -> same_fields t bs1 bs2 -> bs1 = bs2.
Proof.
  intros Ht L1 L2 H. apply nth_error_ext_N. intros i.
  destruct (N.lt_ge_cases i (size t)) as [Hi|Hi].
  2:{ rewrite !(proj2 (nth_error_None _ _)) by (unfold lenN in *; lia). reflexivity. }
  destruct (solid_all t Ht i Hi) as (path & o & t' & Hl & Hit & Hb & _). specialize (H _ _ _ Hl Hit).
  unfold get in H. rewrite Hl in H.
  assert (Hlen : forall bs : bytes, lenN bs = size t -> lenN (slice bs o (size t')) = size t').
  { intros bs Lb. rewrite lenN_slice. pose proof (locate_bounds _ _ _ _ Hl). lia. }
  apply le_dec_inj in H. 2:{ pose proof (Hlen _ L1). pose proof (Hlen _ L2). unfold lenN in *. lia. }
  assert (E : forall bs : bytes, nth_error bs (N.to_nat i) = nth_error (slice bs o (size t')) (N.to_nat (i - o))).
  { intros bs. rewrite nth_error_slice by lia. f_equal. lia. }
  rewrite (E bs1), (E bs2), H. reflexivity.
Qed.

(** ** C104 *)
(** [==] of any structure: equal integer fields, nothing else. *)
Theorem C104_equality_is_of_fields : forall t a b, names_ok t = true -> lenN a = size t -> lenN b = size t ->
  (derived_eq t a b = true <->
   forall path o t', locate t path = Some (o, t') -> int_type t' -> get t path a = get t path b).
Proof. intros t a b Nm La Lb. split; [apply eq_same; assumption|apply same_eq; assumption]. Qed.

(** The structures that derive [PartialEq] (src/loader_gen), and those that are [Default] (also src/loader/pe). *)
Definition comparable : list ty :=
  [screen_info; apm_bios_info; ist_info; edid_info; boot_e820_entry; edd_device_params; edd_info; setup_header; sys_desc_table;
   olpc_ofw_header; efi_info; boot_params; hvm_start_info; hvm_modlist_entry; hvm_memmap_table_entry;
   Elf32_Ehdr; Elf32_Phdr; Elf32_Shdr; Elf32_Sym; Elf32_Rel; Elf32_Rela; Elf32_Nhdr; Elf32_Verdef; Elf32_Verdaux;
   Elf64_Ehdr; Elf64_Phdr; Elf64_Shdr; Elf64_Sym; Elf64_Rel; Elf64_Rela; Elf64_Nhdr; Elf64_Verdef; Elf64_Verdaux].
Definition exported : list ty := comparable ++ [arm64_image_header; riscv64_image_header].
Lemma exported_solid t : In t exported -> solid t = true /\ names_ok t = true.
Proof.
  assert (H : forallb (fun t => solid t && names_ok t) exported = true) by (vm_compute; reflexivity).
  intros Hin. apply andb_true_iff. exact (proj1 (forallb_forall _ _) H t Hin).
Qed.

(** So two such structures are [==] exactly if the guest would see the same bytes. *)
Theorem C104_equality_is_of_bytes : forall t a b, In t comparable -> lenN a = size t -> lenN b = size t ->
  (derived_eq t a b = true <-> a = b).
Proof.
  intros t a b Hin La Lb. destruct (exported_solid t (in_or_app _ _ _ (or_introl Hin))) as [Hs Hn]. split.
  - intros H. apply (solid_same t); try assumption. apply eq_same; assumption.
  - intros <-. apply same_eq; try assumption. intros path o t' _ _. reflexivity.
Qed.

(** The default of such a structure is all zero bytes: nothing of the memory it is built in shows through. *)
Theorem C104_default_is_zero : forall t g, In t exported -> lenN g = size t -> default_over t g = zeros (size t).
Proof.
  intros t g Hin Lg. destruct (exported_solid t Hin) as [Hs Hn].
  apply (solid_same t); [exact Hs|apply default_len; exact Lg|apply lenN_zeros|].
  intros path o t' Hl Ht. rewrite (default_zero t g Lg path o t' Hl Ht). unfold get. rewrite Hl.
  pose proof (locate_bounds _ _ _ _ Hl) as B. symmetry.
  replace (slice (zeros (size t)) o (size t')) with (zeros (size t')); [apply le_dec_zeros|].
  apply nth_error_ext_N. intros i. destruct (N.lt_ge_cases i (size t')) as [Hi|Hi].
  - rewrite nth_error_slice by exact Hi. unfold zeros. rewrite !nth_error_repeat by lia. reflexivity.
  - rewrite !(proj2 (nth_error_None _ _)); [reflexivity| |].
    + pose proof (lenN_slice (zeros (size t)) o (size t')). rewrite lenN_zeros in *. unfold lenN in *. lia.
    + pose proof (lenN_zeros (size t')). unfold lenN in *. lia.
Qed.
(** In any structure at all, every integer field of the default is 0. *)
Theorem C104_default_fields : forall t g path o t', lenN g = size t -> locate t path = Some (o, t') -> int_type t' ->
  get t path (default_over t g) = 0.
Proof. intros. eapply default_zero; eassumption. Qed.

(** Two load results are [==] exactly if they are the same in every respect. *)
Definition header_whole (r : load_result) : Prop := forall h, result_header r = Some h -> lenN h = size setup_header.
Theorem C104_results : forall r1 r2, header_whole r1 -> header_whole r2 -> (result_eq r1 r2 = true <-> r1 = r2).
Proof.
  intros [l1 e1 h1 c1] [l2 e2 h2 c2] W1 W2. unfold result_eq, header_whole in *. cbn [kernel_load kernel_end result_header pvh_boot_cap] in *.
  assert (Hc : cap_eq c1 c2 = true <-> c1 = c2).
  { destruct c1, c2; cbn [cap_eq]; try (split; [discriminate|discriminate]); try (split; reflexivity).
    rewrite N.eqb_eq. split; [intros -> | intros H; injection H]; auto. }
  assert (Hh : (match h1, h2 with Some x, Some y => derived_eq setup_header x y | None, None => true | _, _ => false end) = true <-> h1 = h2).
  { destruct h1 as [x|], h2 as [y|]; try (split; [discriminate|discriminate]); try (split; reflexivity).
    rewrite (C104_equality_is_of_bytes setup_header x y); [split; [intros ->; reflexivity|intros H; injection H; auto]| | |].
    - unfold comparable. do 7 right. left. reflexivity.
    - apply W1. reflexivity.
    - apply W2. reflexivity. }
  rewrite !andb_true_iff, !N.eqb_eq, Hc, Hh. split.
  - intros [[[-> ->] ->] ->]. reflexivity.
  - intros H. injection H as -> -> -> ->. auto.
Qed.

(** Every successful load gives such a result... *)
Lemma loaded_whole bld be t m m' res : wf_mem m = true -> task_typed t ->
  perform bld be t m = (m', Loaded (Ok res)) -> header_whole res.
Proof.
  intros Hw Ht E h Eh. destruct t as [off hm im|off hm im|a off hm im| | | | | ]; cbn [perform task_typed] in *.
  - destruct (elf_load bld be off hm im m) as [[r' m1] o] eqn:F. injection E as -> ->.
    assert (H : runs bld be off hm im m m' (Ok res)) by (split; [exact Ht|]; split; [exact Hw|]; eauto).
    apply C21_elf_addresses in H as (_ & _ & H & _). rewrite H in Eh. discriminate.
  - destruct (bz_load be off hm im m) as [[r' m1] o] eqn:F. injection E as -> ->. destruct Ht as (T1 & T2 & T3).
    assert (H : bz_runs be off hm im m m' (Ok res)) by (split; [exact T1|]; split; [exact T2|]; split; [exact Hw|]; split; [exact T3|]; eauto).
    apply C38_bz_whole_header_in_file in H as (_ & _ & h' & H & L & _). rewrite H in Eh. injection Eh as <-. exact L.
  - destruct (pe_load a be off hm im m) as [[r' m1] o] eqn:F. injection E as -> ->.
    assert (H : pe_runs a be off hm im m m' (Ok res)) by (split; [exact Ht|]; split; [exact Hw|]; eauto).
    apply C39_pe_placement in H as (_ & _ & _ & H & _). rewrite H in Eh. discriminate.
  - destruct (load_dtb be _ _ m) as [[? ?] ?]. discriminate.
  - destruct (load_cmdline bld be m _ _) as [? ?]. discriminate.
  - destruct (linux_write_bootparams be _ m) as [? ?]. discriminate.
  - destruct (fdt_write_bootparams be _ m) as [? ?]. discriminate.
  - destruct (pvh_write_bootparams be _ m) as [? ?]. discriminate.
Qed.
(** ...so comparing the results of two loads with [==] tells exactly whether they agree; neither is the default
    result unless nothing at all was reported. *)
Theorem C104_loads_compared : forall bld1 be1 t1 m1 m1' r1 bld2 be2 t2 m2 m2' r2,
  wf_mem m1 = true -> wf_mem m2 = true -> task_typed t1 -> task_typed t2 ->
  perform bld1 be1 t1 m1 = (m1', Loaded (Ok r1)) -> perform bld2 be2 t2 m2 = (m2', Loaded (Ok r2)) ->
  (result_eq r1 r2 = true <-> r1 = r2) /\
  (result_eq r1 default_result = true <->
     kernel_load r1 = 0 /\ kernel_end r1 = 0 /\ result_header r1 = None /\ pvh_boot_cap r1 = PvhEntryIgnored).
Proof.
  intros until r2. intros W1 W2 T1 T2 E1 E2.
  pose proof (loaded_whole _ _ _ _ _ _ W1 T1 E1) as H1. pose proof (loaded_whole _ _ _ _ _ _ W2 T2 E2) as H2.
  split; [apply C104_results; assumption|]. rewrite C104_results; [|exact H1|intros h Hh; discriminate Hh].
  destruct r1 as [l e h c]. unfold default_result. cbn [kernel_load kernel_end result_header pvh_boot_cap]. split.
  - intros H. injection H as -> -> -> ->. auto.
  - intros (-> & -> & -> & ->). reflexivity.
Qed.

(** A structure with padding would behave differently: [==] ignores the padding, and a default shows old memory there. *)
Definition dirty : bytes := repeat xff 24.
Example C104_padding : names_ok memmap_entry_without_reserved = true /\ solid memmap_entry_without_reserved = false /\
  derived_eq memmap_entry_without_reserved dirty (patch dirty 20 (zeros 4)) = true /\ dirty <> patch dirty 20 (zeros 4) /\
  derived_eq memmap_entry_without_reserved dirty (patch dirty 19 (zeros 1)) = false /\
  default_over memmap_entry_without_reserved dirty = zeros 20 ++ repeat xff 4 /\
  default_over hvm_memmap_table_entry dirty = zeros 24.
Proof. vm_compute. repeat split; discriminate. Qed.

(** Two demonstration images that differ only in where they are loaded. *)
Example C104_applies : forall bld be, exists m1 m2 r1 r2,
  wf_mem demo_mem = true /\ task_typed (LoadBz None (Some 0x1000000) (plain_reader demo_bz)) /\
  perform bld be (LoadBz None (Some 0x1000000) (plain_reader demo_bz)) demo_mem = (m1, Loaded (Ok r1)) /\
  perform bld be (LoadElf None None (plain_reader demo_elf)) demo_mem = (m2, Loaded (Ok r2)) /\
  result_eq r1 r1 = true /\ result_eq r1 r2 = false /\ result_eq r2 r2 = true /\ result_eq r2 default_result = false.
Proof.
  intros bld be. destruct bld, be; eexists _, _, _, _; (split; [reflexivity|]);
    (split; [split; [apply plain_wf; reflexivity|split; [vm_compute; discriminate|intros a E; discriminate E]]|]);
    (split; [vm_compute; reflexivity|]); (split; [vm_compute; reflexivity|]); vm_compute; auto.
Qed.

(** [==] on errors: the same variant carrying the same.  (For [Cmdline]'s errors, the one of Cmdline.v.) *)
Lemma lerror_eq_iff a b : lerror_eq a b = true <-> a = b.
Proof.
  split; [|intros <-; unfold lerror_eq; rewrite N.eqb_refl; destruct a; cbn; rewrite ?N.eqb_refl; reflexivity].
  unfold lerror_eq. destruct a as [x|x|x| | | | |], b as [y|y|y| | | | |]; try (cbn; discriminate || reflexivity);
    change (lerror_tag _ =? lerror_tag _) with true; cbn [andb]; destruct x, y; (reflexivity || (cbn; discriminate)).
Qed.
Lemma berror_eq_iff a b : berror_eq a b = true <-> a = b.
Proof.
  split; [|intros <-; unfold berror_eq; rewrite N.eqb_refl; destruct a; cbn; rewrite ?N.eqb_refl; reflexivity].
  unfold berror_eq. destruct a as [x|x|x| | |], b as [y|y|y| | |]; try (cbn; discriminate || reflexivity);
    change (berror_tag _ =? berror_tag _) with true; cbn [andb]; destruct x, y; (reflexivity || (cbn; discriminate)).
Qed.
Theorem C104_errors :
  (forall a b, lerror_eq a b = true <-> a = b) /\ (forall a b, berror_eq a b = true <-> a = b) /\ (forall a b, cerror_eqb a b = true <-> a = b).
Proof.
  split; [exact lerror_eq_iff|]. split; [exact berror_eq_iff|].
  intros a b. split.
  - destruct a, b; cbn; try discriminate; try reflexivity. unfold text_eqb. destruct (list_eq_dec N.eq_dec _ _); congruence.
  - intros <-. destruct a; try reflexivity. cbn. unfold text_eqb. destruct (list_eq_dec N.eq_dec _ _); congruence.
Qed.

(** What [assert_eq!] sees of two finished loads, successful or not: equal exactly if the reports are the same. *)
Theorem C104_reports_compared : forall bld1 be1 t1 m1 m1' o1 bld2 be2 t2 m2 m2' o2,
  wf_mem m1 = true -> wf_mem m2 = true -> task_typed t1 -> task_typed t2 ->
  perform bld1 be1 t1 m1 = (m1', Loaded o1) -> perform bld2 be2 t2 m2 = (m2', Loaded o2) ->
  (forall p, o1 <> Panic p) ->
  (answer_eq lerror_eq result_eq o1 o2 = true <-> o1 = o2).
Proof.
  intros until o2. intros W1 W2 T1 T2 E1 E2 Np.
  destruct o1 as [r1|e1|p]; [| |exfalso; exact (Np p eq_refl)]; destruct o2 as [r2|e2|p2]; cbn [answer_eq]; try (split; discriminate).
  - destruct (C104_loads_compared _ _ _ _ _ _ _ _ _ _ _ _ W1 W2 T1 T2 E1 E2) as (X & _). rewrite X. split; congruence.
  - rewrite lerror_eq_iff. split; congruence.
Qed.
Example C104_errors_differ : lerror_eq (LElf ReadElfHeader) (LBz ReadBzImageHeader) = false /\ lerror_eq (LElf Align) (LElf ElfOverflow) = false /\ berror_eq (BPvh StartInfoSetup) (BPvh StartInfoSetup) = true /\ cerror_eqb (MissingVal (txt "a")) (MissingVal (txt "b")) = false.
Proof. vm_compute. repeat split. Qed.
