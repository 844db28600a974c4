(** * Props_Bytes: structures handed to the guest as raw bytes, C68.

    The crate declares its structures to be plain bytes ([unsafe impl ByteValued]), writes them to
    the guest and reads them from files.  That is only sound if every byte of such a structure
    belongs to an integer field: a byte that belongs to none would be uninitialised memory of the
    VMM shown to the guest.  Vocabulary: Layout.v ([locate] computes offsets by the repr(C) rules). *)
From Verif Require Import Base Base_proofs Io Mem SpecMem SpecFile File_proofs Layout SpecAbi Layout_proofs.

(** Integers have no invalid bit patterns; these are the only leaf types. *)
Definition int_type (t : ty) : Prop := t = U8 \/ t = U16 \/ t = U32 \/ t = U64.

(** Every byte of the structure is part of an integer field, and of only one. *)
Definition all_bytes_are_fields (t : ty) : Prop :=
  forall i, i < size t -> exists path o t', locate t path = Some (o, t') /\ int_type t' /\ o <= i < o + size t' /\
    forall path2 o2 t2, locate t path2 = Some (o2, t2) -> int_type t2 -> o2 <= i < o2 + size t2 -> path2 = path.

(** ** Proof: a decidable sufficient condition *)
Fixpoint names_unique (l : list string) : bool :=
  match l with [] => true | x :: r => negb (existsb (String.eqb x) r) && names_unique r end.
Fixpoint solid (t : ty) : bool :=
  match t with
  | U8 | U16 | U32 | U64 => true
  | Arr _ t => solid t
  | Struct p fs =>
      names_unique (map fst fs) && (size (Struct p fs) =? fields_end p 0 fs) &&
      (fix go (o : N) (fs : list (string * ty)) : bool :=
         match fs with
         | [] => true
         | (_, t) :: r => (place p o t =? o) && solid t && go (o + size t) r
         end) 0 fs
  end.

Lemma find_later p o n0 t0 fs n fo t' : n0 <> n -> find_field p (place p o t0 + size t0) fs n = Some (fo, t') ->
  find_field p o ((n0, t0) :: fs) n = Some (fo, t').
Proof. intros H E. cbn [find_field]. destruct (String.eqb_spec n0 n); [contradiction|exact E]. Qed.

Lemma find_in p fs n : forall o fo t', find_field p o fs n = Some (fo, t') -> In n (map fst fs).
Proof.
  induction fs as [|[m t] fs IH]; intros o fo t' H; cbn [find_field map fst] in *; [discriminate|].
  destruct (String.eqb_spec m n); [now left|right; eauto].
Qed.

Lemma solid_covered t : solid t = true -> forall i, i < size t ->
  exists path o t', locate t path = Some (o, t') /\ int_type t' /\ o <= i < o + size t'.
Proof.
  induction t as [ | | | |n t IH|p fs IH] using ty_induct; intros Hs i Hi.
  1-4: exists [], 0; eexists; split; [reflexivity|]; split; [unfold int_type; auto|]; cbn in *; lia.
  - cbn [solid size] in *. assert (Hz : size t <> 0) by (intros E; rewrite E in Hi; lia).
    pose proof (N.div_mod i (size t) Hz) as E. pose proof (N.mod_lt i (size t) Hz) as L.
    destruct (IH Hs (i mod size t) L) as (path & o & t' & Hl & Ht & Hb).
    exists (Idx (i / size t) :: path), (i / size t * size t + o), t'. cbn [locate].
    rewrite (proj2 (N.ltb_lt _ _)) by (apply N.div_lt_upper_bound; lia). rewrite Hl. split; [reflexivity|]. split; [exact Ht|]. lia.
  - cbn [solid] in Hs. apply andb_true_iff in Hs as [Hs Hgo]. apply andb_true_iff in Hs as [Hnu Hsz]. apply N.eqb_eq in Hsz. rewrite Hsz in Hi. clear Hsz.
    assert (G : exists n fo t' path o t'', find_field p 0 fs n = Some (fo, t') /\ locate t' path = Some (o, t'') /\ int_type t'' /\
      fo + o <= i < fo + o + size t'').
    { assert (H0 : 0 <= i) by lia. revert H0 Hi Hgo. generalize 0 as o0. induction fs as [|[n t] fs IHf]; intros o0 H0 Hi Hgo; cbn [fields_end] in Hi; [lia|].
      apply andb_true_iff in Hgo as [Hgo Hr]. apply andb_true_iff in Hgo as [Hp Ht]. apply N.eqb_eq in Hp.
      inversion IH as [|? ? IHt IHr]; subst. cbn [snd] in IHt. cbn [map fst names_unique] in Hnu. apply andb_true_iff in Hnu as [Hni Hnu].
      destruct (N.lt_ge_cases i (o0 + size t)) as [Hlt|Hge].
      - destruct (IHt Ht (i - o0) ltac:(lia)) as (path & o & t' & Hl & Hit & Hb).
        exists n, o0, t, path, o, t'. split; [|split; [exact Hl|split; [exact Hit|lia]]]. cbn [find_field]. rewrite String.eqb_refl, Hp. reflexivity.
      - rewrite Hp in Hi. destruct (IHf IHr Hnu _ Hge Hi Hr) as (n1 & fo & t' & path & o & t'' & Hf & Hrest).
        exists n1, fo, t', path, o, t''. split; [|exact Hrest]. apply find_later; [|now rewrite Hp].
        intros <-. apply negb_true_iff in Hni. apply find_in in Hf. assert (existsb (String.eqb n) (map fst fs) = true); [|congruence].
        apply existsb_exists. exists n. split; [exact Hf|apply String.eqb_refl]. }
    destruct G as (n & fo & t' & path & o & t'' & Hf & Hl & Hit & Hb). exists (Fld n :: path), (fo + o), t''. cbn [locate]. rewrite Hf, Hl. auto.
Qed.

Lemma int_no_path t path o t' : int_type t -> locate t path = Some (o, t') -> path = [].
Proof. intros Ht H. destruct path as [|[n|i] path]; [reflexivity| |]; destruct Ht as [-> |[-> |[-> | ->]]]; discriminate. Qed.

Lemma leaf_unique q1 : forall q2 t o1 t1 o2 t2, locate t q1 = Some (o1, t1) -> locate t q2 = Some (o2, t2) ->
  int_type t1 -> int_type t2 -> q1 = q2 \/ diverge q1 q2.
Proof.
  induction q1 as [|s1 q1 IH]; intros q2 t o1 t1 o2 t2 H1 H2 I1 I2.
  - left. cbn in H1. injection H1 as _ <-. symmetry. exact (int_no_path _ _ _ _ I1 H2).
  - destruct q2 as [|s2 q2]. { cbn in H2. injection H2 as _ <-. pose proof (int_no_path _ _ _ _ I2 H1); discriminate. }
    destruct s1 as [n1|i1], s2 as [n2|i2]; cbn [locate] in H1, H2; destruct t as [ | | | |k te|p fs]; try discriminate.
    + destruct (String.string_dec n1 n2) as [<-|Hn].
      * destruct (find_field p 0 fs n1) as [[fo tf]|]; [|discriminate].
        destruct (locate tf q1) as [[a1 b1]|] eqn:E1; [|discriminate]. destruct (locate tf q2) as [[a2 b2]|] eqn:E2; [|discriminate].
        injection H1 as _ <-. injection H2 as _ <-. destruct (IH _ _ _ _ _ _ E1 E2 I1 I2) as [-> |D]; [left; reflexivity|right; apply div_step; exact D].
      * right. constructor. exact Hn.
    + destruct (N.eq_dec i1 i2) as [<-|Hn].
      * destruct (i1 <? k); [|discriminate].
        destruct (locate te q1) as [[a1 b1]|] eqn:E1; [|discriminate]. destruct (locate te q2) as [[a2 b2]|] eqn:E2; [|discriminate].
        injection H1 as _ <-. injection H2 as _ <-. destruct (IH _ _ _ _ _ _ E1 E2 I1 I2) as [-> |D]; [left; reflexivity|right; apply div_step; exact D].
      * right. constructor. exact Hn.
Qed.

Lemma solid_all t : solid t = true -> all_bytes_are_fields t.
Proof.
  intros Hs i Hi. destruct (solid_covered t Hs i Hi) as (path & o & t' & Hl & Hit & Hb). exists path, o, t'.
  split; [exact Hl|]. split; [exact Hit|]. split; [exact Hb|]. intros q o2 t2 H2 I2 B2.
  destruct (leaf_unique _ _ _ _ _ _ _ H2 Hl I2 Hit) as [E|D]; [exact E|].
  pose proof (locate_apart _ _ D _ _ _ _ _ H2 Hl). lia.
Qed.

Lemma nth_error_ext_N {A} (l1 l2 : list A) : (forall i, nth_error l1 (N.to_nat i) = nth_error l2 (N.to_nat i)) -> l1 = l2.
Proof.
  intros H. assert (H' : forall k, nth_error l1 k = nth_error l2 k) by (intros k; specialize (H (N.of_nat k)); now rewrite Nat2N.id in H).
  clear H. revert l2 H'. induction l1 as [|x l1 IH]; intros [|y l2] H; [reflexivity|specialize (H 0%nat); discriminate|specialize (H 0%nat); discriminate|].
  pose proof (H 0%nat) as E. injection E as ->. f_equal. apply IH. intros k. exact (H (S k)).
Qed.
Lemma le_dec_inj l1 l2 : length l1 = length l2 -> le_dec l1 = le_dec l2 -> l1 = l2.
Proof. intros L E. rewrite <- (le_enc_dec l1), <- (le_enc_dec l2), L, E. reflexivity. Qed.
Lemma lenN_assign_bytes t asg : forall bs, lenN bs = size t -> lenN (assign_all t asg bs) = size t.
Proof.
  induction asg as [|[q v] asg IH]; intros bs H; [exact H|]. cbn. apply IH. now apply lenN_set.
Qed.

(** ** C68 *)
(** The structures the crate declares to be plain bytes (src/loader/mod.rs:189,194,
    src/configurator/x86_64/pvh.rs:80,84,88, src/loader/elf/mod.rs:30,34,38, src/loader/pe/mod.rs:97,122). *)
Definition byte_valued : list ty :=
  [boot_params; setup_header; hvm_start_info; hvm_memmap_table_entry; hvm_modlist_entry;
   Elf64_Ehdr; Elf64_Nhdr; Elf64_Phdr; arm64_image_header; riscv64_image_header].

Theorem C68_no_hidden_bytes : forall t, In t byte_valued -> all_bytes_are_fields t.
Proof.
  intros t Ht. apply solid_all. cbn [In byte_valued] in Ht.
  repeat destruct Ht as [<- |Ht]; try (vm_compute; reflexivity). contradiction.
Qed.

(** Hence the bytes of a structure are determined by its integer fields... *)
Theorem C68_fields_determine_bytes : forall t bs1 bs2,
  In t byte_valued -> lenN bs1 = size t -> lenN bs2 = size t ->
  (forall path o t', locate t path = Some (o, t') -> int_type t' -> get t path bs1 = get t path bs2) -> bs1 = bs2.
Proof.
  intros t bs1 bs2 Ht L1 L2 H. apply nth_error_ext_N. intros i.
  destruct (N.lt_ge_cases i (size t)) as [Hi|Hi].
  2:{ rewrite !(proj2 (nth_error_None _ _)) by (unfold lenN in *; lia). reflexivity. }
  destruct (C68_no_hidden_bytes t Ht i Hi) as (path & o & t' & Hl & Hit & Hb & _). specialize (H _ _ _ Hl Hit).
  unfold get in H. rewrite Hl in H.
  assert (Hlen : forall bs : bytes, lenN bs = size t -> lenN (slice bs o (size t')) = size t').
  { intros bs Lb. rewrite lenN_slice. pose proof (locate_bounds _ _ _ _ Hl). lia. }
  apply le_dec_inj in H. 2:{ pose proof (Hlen _ L1). pose proof (Hlen _ L2). unfold lenN in *. lia. }
  assert (E : forall bs : bytes, nth_error bs (N.to_nat i) = nth_error (slice bs o (size t')) (N.to_nat (i - o))).
  { intros bs. rewrite nth_error_slice by lia. f_equal. lia. }
  rewrite (E bs1), (E bs2), H. reflexivity.
Qed.

(** ...and every string of bytes is the value some assignment of the integer fields produces: reading
    a structure from a file or from the guest never yields an invalid value. *)
Theorem C68_every_bytes_is_a_value : forall t bs, In t byte_valued -> lenN bs = size t ->
  exists asg, (forall path v, In (path, v) asg -> exists o t', locate t path = Some (o, t') /\ int_type t' /\ v < 256 ^ size t') /\
    assign_all t asg (default_of t) = bs.
Proof.
  intros t bs Ht L.
  assert (G : forall k, N.of_nat k <= size t -> exists asg,
    (forall path v, In (path, v) asg -> exists o t', locate t path = Some (o, t') /\ int_type t' /\ v < 256 ^ size t') /\
    forall i, i < N.of_nat k -> nth_error (assign_all t asg (default_of t)) (N.to_nat i) = nth_error bs (N.to_nat i)).
  { induction k as [|k IH]; intros Hk; [exists []; split; [intros ? ? []|intros i Hi; lia]|].
    destruct IH as (asg & Ha & Hn); [lia|].
    destruct (C68_no_hidden_bytes t Ht (N.of_nat k) ltac:(lia)) as (path & o & t' & Hl & Hit & Hb & _).
    exists (asg ++ [(path, get t path bs)])%list. split.
    - intros q v Hin. apply in_app_or in Hin as [Hin|[Hin|[]]]; [eauto|]. injection Hin as <- <-. exists o, t'. split; [exact Hl|]. split; [exact Hit|].
      unfold get. rewrite Hl. pose proof (le_dec_bound (slice bs o (size t'))) as Hlt. rewrite lenN_slice in Hlt. pose proof (locate_bounds _ _ _ _ Hl).
      replace (N.min (size t') (lenN bs - o)) with (size t') in Hlt by lia. exact Hlt.
    - intros i Hi. unfold assign_all. rewrite fold_left_app. cbn [fold_left fst snd]. fold (assign_all t asg (default_of t)).
      set (b := assign_all t asg (default_of t)) in *. assert (Lb : lenN b = size t). { apply lenN_assign_bytes. apply lenN_zeros. }
      unfold set, get. rewrite Hl. pose proof (locate_bounds _ _ _ _ Hl) as Hbd.
      assert (Ls : lenN (slice bs o (size t')) = size t') by (rewrite lenN_slice; lia).
      assert (Een : le_enc (N.to_nat (size t')) (le_dec (slice bs o (size t'))) = slice bs o (size t')).
      { rewrite <- (le_enc_dec (slice bs o (size t'))) at 2. f_equal. unfold lenN in Ls. lia. }
      rewrite Een, nth_error_patch by (rewrite Ls; lia). rewrite Ls.
      destruct (N.leb_spec o i), (N.ltb_spec i (o + size t')); cbn [andb].
      + rewrite nth_error_slice by lia. f_equal. lia.
      + apply Hn. lia.
      + apply Hn. lia.
      + apply Hn. lia.
  }
  destruct (G (length bs)) as (asg & Ha & Hn); [unfold lenN in L; lia|]. exists asg. split; [exact Ha|].
  apply nth_error_ext_N. intros i. destruct (N.lt_ge_cases i (lenN bs)) as [Hi|Hi]; [apply Hn; unfold lenN in *; lia|].
  assert (Lb : lenN (assign_all t asg (default_of t)) = size t) by (apply lenN_assign_bytes, lenN_zeros).
  rewrite !(proj2 (nth_error_None _ _)) by (unfold lenN in *; lia). reflexivity.
Qed.

(** The condition is not vacuous: without the reserved field an entry of the PVH memory map would have hidden bytes. *)
Definition memmap_entry_without_reserved : ty := Struct false [("addr"%string, U64); ("size"%string, U64); ("type_"%string, U32)].
Example C68_applies : size memmap_entry_without_reserved = 24 /\ ~ all_bytes_are_fields memmap_entry_without_reserved /\
  In hvm_memmap_table_entry byte_valued /\ size hvm_memmap_table_entry = 24.
Proof.
  split; [reflexivity|]. split; [|split; [cbn; auto 6|reflexivity]].
  intros H. destruct (H 20 ltac:(reflexivity)) as (path & o & t' & Hl & Hit & Hb & _).
  destruct path as [|[n|i] path]; cbn [locate memmap_entry_without_reserved] in Hl; [injection Hl as _ <-; destruct Hit as [X|[X|[X|X]]]; discriminate| |discriminate].
  cbn [find_field] in Hl.
  repeat match type of Hl with context [String.eqb ?a n] => destruct (String.eqb a n) end; try discriminate;
    (destruct path as [|[|] path]; cbn [locate] in Hl; try discriminate); injection Hl as <- <-; destruct Hb as [_ Hb]; vm_compute in Hb; discriminate.
Qed.
