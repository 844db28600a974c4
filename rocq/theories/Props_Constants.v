(** * Props_Constants: C119, the constants exported next to the generated structures.

    A VMM, or a crate that builds upon this one, passes these constants where Linux, Xen or an ELF tool expects a number. *)
From Coq Require Import List NArith String Lia Bool.
From Coq.Strings Require Import Byte.
From Verif Require Import Base Layout SpecAbi Props_Abi SpecElf SpecFile Elf Constants SpecConstants.
Import ListNotations.
Local Open Scope string_scope.
Local Open Scope N_scope.
Local Open Scope list_scope.

(** The constant [n] of the crate is [w] bits wide and has the value [v]. *)
Definition typed (n : string) (w v : N) : Prop := In (n, w, v) (boot_constants ++ pvh_constants ++ elf_constants).
Definition constant (n : string) (v : N) : Prop := exists w, typed n w v.
(** A note belongs to [owner] and has the type [t]. *)
Definition note_is (x owner : string) (t : N) : Prop :=
  In (("NN_" ++ x)%string, owner) elf_names /\ constant ("NT_" ++ x)%string t.

Definition plain (l : list (string * N * N)) : list (string * N) := map (fun e => (fst (fst e), snd e)) l.
Definition pair_eqb (a b : string * N) : bool := String.eqb (fst a) (fst b) && (snd a =? snd b).
Definition within (l1 l2 : list (string * N)) : bool := forallb (fun a => existsb (pair_eqb a) l2) l1.
Lemma within_spec l1 l2 : within l1 l2 = true -> forall n v, In (n, v) l1 -> In (n, v) l2.
Proof.
  unfold within. rewrite forallb_forall. intros H n v Hi. specialize (H _ Hi). apply existsb_exists in H. destruct H as ([n' v'] & Hi' & He).
  unfold pair_eqb in He. cbn in He. apply andb_true_iff in He. destruct He as [E1 E2]. apply String.eqb_eq in E1. apply N.eqb_eq in E2. now subst.
Qed.
Lemma plain_in l n v : In (n, v) (plain l) <-> exists w, In (n, w, v) l.
Proof.
  unfold plain. rewrite in_map_iff. split.
  - intros ([[n' w] v'] & E & H). cbn in E. inversion E; subst. now exists w.
  - intros (w & H). now exists (n, w, v).
Qed.
Lemma same_table l p : within (plain l) p && within p (plain l) = true -> forall n v, (exists w, In (n, w, v) l) <-> In (n, v) p.
Proof.
  intros H n v. apply andb_true_iff in H. destruct H as [H1 H2]. rewrite <- plain_in. split; now apply within_spec.
Qed.

(** The crate exports exactly the published numbers: none is wrong, none is missing, none is made up. *)
Theorem C119_published :
  (forall n v, (exists w, In (n, w, v) boot_constants) <-> In (n, v) published_boot) /\
  (forall n v, (exists w, In (n, w, v) pvh_constants) <-> In (n, v) published_pvh) /\
  (forall n v, (exists w, In (n, w, v) elf_constants) <-> In (n, v) published_elf) /\
  (forall n o, In (n, o) elf_names <-> In (n, o) published_note_owners).
Proof.
  split; [apply same_table; vm_compute; reflexivity|].
  split; [apply same_table; vm_compute; reflexivity|].
  split; [apply same_table; vm_compute; reflexivity|].
  intros n o. replace published_note_owners with
    (map (fun e => (fst e, snd e)) published_note_owners) by (rewrite <- map_id; apply map_ext; now intros []).
  assert (G : forall l1 l2 : list (string * string),
    forallb (fun a => existsb (fun b => String.eqb (fst a) (fst b) && String.eqb (snd a) (snd b)) l2) l1 = true ->
    forall x, In x l1 -> In x l2).
  { intros l1 l2 H x Hi. rewrite forallb_forall in H. specialize (H _ Hi). apply existsb_exists in H. destruct H as (y & Hy & He).
    apply andb_true_iff in He. destruct He as [E1 E2]. apply String.eqb_eq in E1. apply String.eqb_eq in E2.
    destruct x, y. cbn in *. now subst. }
  split; apply G; vm_compute; reflexivity.
Qed.

Lemma constant_in n v : constant n v <-> In (n, v) (plain (boot_constants ++ pvh_constants ++ elf_constants)).
Proof. unfold constant, typed. now rewrite plain_in. Qed.

(** A name means one number, of the width of its type. *)
Theorem C119_one_value : forall n v1 v2, constant n v1 -> constant n v2 -> v1 = v2.
Proof.
  assert (G : forallb (fun a => forallb (fun b => implb (String.eqb (fst a) (fst b)) (snd a =? snd b))
                (plain (boot_constants ++ pvh_constants ++ elf_constants)))
                (plain (boot_constants ++ pvh_constants ++ elf_constants)) = true) by (vm_compute; reflexivity).
  intros n v1 v2 H1 H2. apply constant_in in H1. apply constant_in in H2. rewrite forallb_forall in G. specialize (G _ H1). cbn [fst snd] in G.
  rewrite forallb_forall in G. specialize (G _ H2). cbn [fst snd] in G. rewrite String.eqb_refl in G. now apply N.eqb_eq.
Qed.
Theorem C119_fits : forall n w v, typed n w v -> v < 2 ^ w.
Proof.
  assert (G : forallb (fun e => snd e <? 2 ^ snd (fst e)) (boot_constants ++ pvh_constants ++ elf_constants) = true)
    by (vm_compute; reflexivity).
  intros n w v H. rewrite forallb_forall in G. specialize (G _ H). now apply N.ltb_lt in G.
Qed.

(** ** Flags *)
(** The families whose members a user combines in one word, and the width of that word where the guest keeps it. *)
Definition flag_families : list (list (string * N) * N) :=
  [ (published_load, 8); (published_xload, 16); (published_edd_ext, 16); (published_edd_info, 16); (published_video_capability, 32);
    (published_section_flags, 64); (published_access, 32) ].
(** [f] is a flag of the family [fam], and [v] is what the crate says it is. *)
Definition flag_of (fam : list (string * N)) (f : string) (v : N) : Prop := In f (map fst fam) /\ constant f v.
(** The flag is up in the word. *)
Definition up (word v : N) : Prop := N.land word v <> 0.

Definition single (v : N) : bool := v =? 2 ^ N.log2 v.
Lemma flags_single : forallb (fun fw => forallb (fun a => single (snd a)) (fst fw)) flag_families = true.
Proof. vm_compute. reflexivity. Qed.
Lemma flags_apart :
  forallb (fun fw => forallb (fun a => forallb (fun b => implb (N.log2 (snd a) =? N.log2 (snd b)) (String.eqb (fst a) (fst b))) (fst fw)) (fst fw))
    flag_families = true.
Proof. vm_compute. reflexivity. Qed.
Lemma flags_constants :
  forallb (fun fw => within (fst fw) (plain (boot_constants ++ pvh_constants ++ elf_constants))) flag_families = true.
Proof. vm_compute. reflexivity. Qed.
Lemma flag_pair fam w f v : In (fam, w) flag_families -> flag_of fam f v -> In (f, v) fam.
Proof.
  intros Hf [Hn Hc]. apply in_map_iff in Hn. destruct Hn as ([f' v'] & E & Hi). cbn in E. subst f'.
  pose proof flags_constants as G. rewrite forallb_forall in G. specialize (G _ Hf). cbn [fst] in G.
  assert (constant f v') as Hc' by (apply constant_in; exact (within_spec _ _ G _ _ Hi)). now rewrite (C119_one_value _ _ _ Hc Hc').
Qed.
Lemma flag_bit fam w f v : In (fam, w) flag_families -> flag_of fam f v -> v = 2 ^ N.log2 v.
Proof.
  intros Hf H. pose proof (flag_pair _ _ _ _ Hf H) as Hi. pose proof flags_single as G. rewrite forallb_forall in G. specialize (G _ Hf).
  cbn [fst] in G. rewrite forallb_forall in G. specialize (G _ Hi). now apply N.eqb_eq in G.
Qed.
Lemma flag_bits_eq fam w f1 v1 f2 v2 : In (fam, w) flag_families -> flag_of fam f1 v1 -> flag_of fam f2 v2 ->
  (N.log2 v1 = N.log2 v2 <-> f1 = f2).
Proof.
  intros Hf H1 H2. split.
  - intros E. pose proof flags_apart as G. rewrite forallb_forall in G. specialize (G _ Hf). cbn [fst] in G. rewrite forallb_forall in G.
    specialize (G _ (flag_pair _ _ _ _ Hf H1)). rewrite forallb_forall in G. specialize (G _ (flag_pair _ _ _ _ Hf H2)). cbn [fst snd] in G.
    rewrite (proj2 (N.eqb_eq _ _) E) in G. now apply String.eqb_eq.
  - intros ->. f_equal. destruct H1, H2. now apply (C119_one_value f2).
Qed.
Lemma up_bit word k : up word (2 ^ k) <-> N.testbit word k = true.
Proof.
  unfold up. split.
  - intros H. destruct (N.testbit word k) eqn:E; [reflexivity|]. exfalso. apply H. apply N.bits_inj. intros j. rewrite N.land_spec, N.bits_0.
    destruct (N.eq_dec j k) as [->|Hne]; [now rewrite E|]. rewrite N.pow2_bits_false by congruence. apply andb_false_r.
  - intros H E. assert (N.testbit (N.land word (2 ^ k)) k = false) as G by (rewrite E; apply N.bits_0).
    rewrite N.land_spec, H, N.pow2_bits_true in G. discriminate.
Qed.

(** Raising a flag in any word raises that flag and no other of the family; lowering one lowers that flag and no other. *)
Theorem C119_raise : forall fam w f1 v1 f2 v2 word, In (fam, w) flag_families -> flag_of fam f1 v1 -> flag_of fam f2 v2 ->
  (up (N.lor word v1) v2 <-> f1 = f2 \/ up word v2).
Proof.
  intros until word. intros Hf H1 H2. rewrite (flag_bit _ _ _ _ Hf H1), (flag_bit _ _ _ _ Hf H2), !up_bit, N.lor_spec, orb_true_iff.
  rewrite <- (flag_bits_eq _ _ _ _ _ _ Hf H1 H2). destruct (N.eq_dec (N.log2 v1) (N.log2 v2)) as [E|E].
  - rewrite E, N.pow2_bits_true. tauto.
  - rewrite N.pow2_bits_false by exact E. intuition discriminate.
Qed.
Theorem C119_lower : forall fam w f1 v1 f2 v2 word, In (fam, w) flag_families -> flag_of fam f1 v1 -> flag_of fam f2 v2 ->
  (up (N.ldiff word v1) v2 <-> f1 <> f2 /\ up word v2).
Proof.
  intros until word. intros Hf H1 H2. rewrite (flag_bit _ _ _ _ Hf H1), (flag_bit _ _ _ _ Hf H2), !up_bit, N.ldiff_spec, andb_true_iff, negb_true_iff.
  rewrite <- (flag_bits_eq _ _ _ _ _ _ Hf H1 H2). destruct (N.eq_dec (N.log2 v1) (N.log2 v2)) as [E|E].
  - rewrite E, N.pow2_bits_true. intuition discriminate.
  - rewrite N.pow2_bits_false by exact E. tauto.
Qed.
(** Any selection of flags: the word made of it says of each flag of the family whether it was selected, and fits where the
    guest keeps it. *)
Theorem C119_selection : forall fam w sel, In (fam, w) flag_families -> Forall (fun fv => flag_of fam (fst fv) (snd fv)) sel ->
  let word := fold_right (fun fv acc => N.lor acc (snd fv)) 0 sel in
  (forall f v, flag_of fam f v -> (up word v <-> In f (map fst sel))) /\ word < 2 ^ w.
Proof.
  intros fam w sel Hf H. cbn zeta. split.
  - intros f v Hv. induction H as [|[g u] sel Hu Hr IH]; cbn [fold_right map fst snd In] in *.
    + unfold up. rewrite N.land_0_l. tauto.
    + rewrite (C119_raise _ _ _ _ _ _ _ Hf Hu Hv). rewrite IH. tauto.
  - assert (G : forallb (fun fw => forallb (fun a => snd a <? 2 ^ snd fw) (fst fw)) flag_families = true) by (vm_compute; reflexivity).
    rewrite forallb_forall in G. specialize (G _ Hf). cbn [fst snd] in G. rewrite forallb_forall in G.
    assert (B : forall x, x < 2 ^ w <-> N.shiftr x w = 0).
    { intros x. rewrite N.shiftr_div_pow2. split; intros Hx; [now apply N.div_small|].
      pose proof (N.pow_nonzero 2 w ltac:(lia)). apply N.div_small_iff; assumption. }
    induction H as [|[g u] sel Hu Hr IH]; cbn [fold_right snd].
    + pose proof (N.pow_nonzero 2 w ltac:(lia)). lia.
    + apply B. rewrite N.shiftr_lor, (proj1 (B _) IH). specialize (G _ (flag_pair _ _ _ _ Hf Hu)). cbn [snd] in G. apply N.ltb_lt in G.
      now rewrite (proj1 (B _) G).
Qed.

(** ** Tags *)
(** The families of which a field holds one member. *)
Definition tag_families : list (list (string * N)) :=
  [ published_setup; published_video; published_memory; published_machines; published_segments; published_file_types;
    published_dynamic; published_sections; published_bindings; published_symbols; published_indices; published_classes;
    published_orders; published_versions ].
(** Different members never share a number: a tag read back names one of them. *)
Theorem C119_tags : forall fam x y v, In fam tag_families -> In x (map fst fam) -> In y (map fst fam) ->
  constant x v -> constant y v -> x = y.
Proof.
  assert (G : forallb (fun fam => within fam (plain (boot_constants ++ pvh_constants ++ elf_constants))) tag_families = true)
    by (vm_compute; reflexivity).
  assert (U : forallb (fun fam => forallb (fun a => forallb (fun b => implb (snd a =? snd b) (String.eqb (fst a) (fst b))) fam) fam)
    tag_families = true) by (vm_compute; reflexivity).
  intros fam x y v Hf Hx Hy Cx Cy. apply in_map_iff in Hx. apply in_map_iff in Hy. destruct Hx as ([x' a] & Ex & Ix), Hy as ([y' b] & Ey & Iy).
  cbn in Ex, Ey. subst x' y'. rewrite forallb_forall in G, U. specialize (G _ Hf). specialize (U _ Hf).
  assert (a = v) as -> by (apply (C119_one_value x); [apply constant_in; exact (within_spec _ _ G _ _ Ix)|exact Cx]).
  assert (b = v) as -> by (apply (C119_one_value y); [apply constant_in; exact (within_spec _ _ G _ _ Iy)|exact Cy]).
  rewrite forallb_forall in U. specialize (U _ Ix). rewrite forallb_forall in U. specialize (U _ Iy). cbn [fst snd] in U.
  rewrite N.eqb_refl in U. now apply String.eqb_eq.
Qed.
(** The one pair of machines that share a number. *)
Theorem C119_mips : forall v, constant "EM_MIPS_RS3_LE" v <-> constant "EM_MIPS_RS4_BE" v.
Proof.
  assert (A : constant "EM_MIPS_RS3_LE" 10) by (apply constant_in; apply (within_spec [("EM_MIPS_RS3_LE", 10)]); [vm_compute; reflexivity|left; reflexivity]).
  assert (B : constant "EM_MIPS_RS4_BE" 10) by (apply constant_in; apply (within_spec [("EM_MIPS_RS4_BE", 10)]); [vm_compute; reflexivity|left; reflexivity]).
  intros v. split; intros H; [rewrite (C119_one_value _ _ _ H A); exact B|rewrite (C119_one_value _ _ _ H B); exact A].
Qed.
(** Owner and type together name one kind of note. *)
Theorem C119_notes : forall x y o t, note_is x o t -> note_is y o t -> x = y.
Proof.
  assert (U : forallb (fun a => forallb (fun b => forallb (fun c => forallb (fun d =>
      implb (String.eqb (snd a) (snd b) && (snd c =? snd d)
             && String.eqb (String.substring 3 (String.length (fst a)) (fst a)) (String.substring 3 (String.length (fst c)) (fst c))
             && String.eqb (String.substring 3 (String.length (fst b)) (fst b)) (String.substring 3 (String.length (fst d)) (fst d)))
            (String.eqb (fst a) (fst b)))
      (filter (fun e => String.eqb (String.substring 3 (String.length (fst b)) (fst b)) (String.substring 3 (String.length (fst e)) (fst e)))
         published_note_types))
      (filter (fun e => String.eqb (String.substring 3 (String.length (fst a)) (fst a)) (String.substring 3 (String.length (fst e)) (fst e)))
         published_note_types)) published_note_owners) published_note_owners = true).
  { vm_compute. reflexivity. }
  assert (T : forall x t, In ("NT_" ++ x, t)%string (plain (boot_constants ++ pvh_constants ++ elf_constants)) ->
                In ("NT_" ++ x, t)%string published_note_types).
  { intros x t H.
    assert (G : forallb (fun e => implb (String.prefix "NT_" (fst e)) (existsb (pair_eqb e) published_note_types))
      (plain (boot_constants ++ pvh_constants ++ elf_constants)) = true) by (vm_compute; reflexivity).
    rewrite forallb_forall in G. specialize (G _ H).
    change (String.prefix "NT_" (fst ("NT_" ++ x, t)%string)) with (String.prefix "" x) in G.
    assert (P : String.prefix "" x = true) by (destruct x; reflexivity). rewrite P in G. change (implb true ?b) with b in G.
    apply existsb_exists in G. destruct G as ([n' v'] & Hi & He). unfold pair_eqb in He. cbn [fst snd] in He. apply andb_true_iff in He.
    destruct He as [E1 E2]. apply String.eqb_eq in E1. apply N.eqb_eq in E2. rewrite E1, E2. exact Hi. }
  assert (SS : forall s, String.substring 0 (3 + String.length s) s = s).
  { intros s. assert (K : forall n s, (String.length s <= n)%nat -> String.substring 0 n s = s).
    { clear. induction n as [|n IH]; intros [|c s] H; cbn in *; try reflexivity; try lia. f_equal. apply IH. lia. }
    apply K. lia. }
  intros x y o t [Ox Tx] [Oy Ty]. apply constant_in, T in Tx. apply constant_in, T in Ty.
  apply (proj2 (proj2 (proj2 C119_published))) in Ox. apply (proj2 (proj2 (proj2 C119_published))) in Oy.
  rewrite forallb_forall in U. specialize (U _ Ox). rewrite forallb_forall in U. specialize (U _ Oy).
  assert (X3 : forall p q s : string, String.length p = 3%nat -> String.substring 3 (String.length (p ++ s)%string) (p ++ s)%string = s).
  { intros [|a [|b [|c [|d p]]]] _ s Hp; try discriminate. exact (SS s). }
  cbn [fst snd] in U.
  assert (A : forall z u, In ("NT_" ++ z, u)%string published_note_types ->
    In ("NT_" ++ z, u)%string (filter (fun e => String.eqb (String.substring 3 (String.length ("NN_" ++ z)) ("NN_" ++ z))
      (String.substring 3 (String.length (fst e)) (fst e))) published_note_types)).
  { intros z u H. apply filter_In. split; [exact H|]. cbn [fst]. rewrite !X3 by (exact "" || reflexivity). apply String.eqb_refl. }
  rewrite forallb_forall in U. specialize (U _ (A _ _ Tx)). rewrite forallb_forall in U. specialize (U _ (A _ _ Ty)).
  cbn [fst snd] in U. rewrite !X3 in U by (exact "" || reflexivity). rewrite !String.eqb_refl, N.eqb_refl in U. cbn [andb implb] in U.
  assert (F : String.eqb ("NN_" ++ x) ("NN_" ++ y) = true) by exact U.
  apply String.eqb_eq in F. cbn in F. now injection F.
Qed.
(** The ranges hold the tags that belong to them and none of the others. *)
Theorem C119_ranges : forall n v, In n (map fst published_segments) -> constant n v ->
  (PT_LOOS <= v <= PT_HIOS <-> String.prefix "PT_GNU_" n = true) /\
  (PT_LOPROC <= v <= PT_HIPROC <-> String.prefix "PT_AARCH64_" n = true).
Proof.
  assert (U : forallb (fun a =>
     Bool.eqb ((PT_LOOS <=? snd a) && (snd a <=? PT_HIOS)) (String.prefix "PT_GNU_" (fst a)) &&
     Bool.eqb ((PT_LOPROC <=? snd a) && (snd a <=? PT_HIPROC)) (String.prefix "PT_AARCH64_" (fst a))) published_segments = true)
    by (vm_compute; reflexivity).
  assert (G : within published_segments (plain (boot_constants ++ pvh_constants ++ elf_constants)) = true) by (vm_compute; reflexivity).
  intros n v Hn Hc. apply in_map_iff in Hn. destruct Hn as ([n' a] & En & Hi). cbn in En. subst n'.
  assert (a = v) as -> by (apply (C119_one_value n); [apply constant_in; exact (within_spec _ _ G _ _ Hi)|exact Hc]).
  rewrite forallb_forall in U. specialize (U _ Hi). cbn [fst snd] in U. apply andb_true_iff in U. destruct U as [U1 U2].
  apply Bool.eqb_prop in U1. apply Bool.eqb_prop in U2. rewrite <- U1, <- U2, !andb_true_iff, !N.leb_le. tauto.
Qed.

(** ** Places *)
(** Where the boot loader finds the BIOS's disks in any zero page, in terms of the constants Linux's early assembly uses. *)
Theorem C119_zero_page : forall page,
  Layout.get boot_params [Fld "eddbuf_entries"] page = uint_at page EDDNR 1 /\
  Layout.get boot_params [Fld "edd_mbr_sig_buf_entries"] page = uint_at page EDD_MBR_SIG_NR_BUF 1 /\
  (forall i, i < EDD_MBR_SIG_MAX ->
     Layout.get boot_params [Fld "edd_mbr_sig_buffer"; Idx i] page = uint_at page (EDD_MBR_SIG_BUF + 4 * i) 4) /\
  (forall i n o s, i < EDDMAXNR -> listed abi_edd_info n o s ->
     Layout.get boot_params [Fld "eddbuf"; Idx i; Fld n] page =
     uint_at page (EDDBUF + (EDDEXTSIZE + EDDPARMSIZE) * i + o) (N.to_nat s)) /\
  (forall i n o s, i < EDDMAXNR -> listed abi_edd_device_params n o s ->
     Layout.get boot_params [Fld "eddbuf"; Idx i; Fld "params"; Fld n] page =
     uint_at page (EDDBUF + (EDDEXTSIZE + EDDPARMSIZE) * i + EDDEXTSIZE + o) (N.to_nat s)).
Proof.
  intros page.
  assert (G : forall path o s, zero_page_place path o s -> Layout.get boot_params path page = uint_at page o (N.to_nat s)).
  { intros path o s H. destruct (C53_zero_page_places _ _ _ H) as (t & E & <-). exact (get_uint _ _ _ _ _ E). }
  split; [apply (G _ 489 1); apply zp_field; cbn; tauto|].
  split; [apply (G _ 490 1); apply zp_field; cbn; tauto|].
  split; [intros i Hi; apply (G _ _ 4); now apply zp_mbr|].
  split; intros i n o s Hi Hl; apply G; [now apply zp_edd|now apply zp_edd_params].
Qed.
(** The three tables of the zero page have exactly the advertised number of entries. *)
Theorem C119_table_sizes : forall i,
  ((exists o t, locate boot_params [Fld "e820_table"; Idx i] = Some (o, t)) <-> i < E820_MAX_ENTRIES_ZEROPAGE) /\
  ((exists o t, locate boot_params [Fld "eddbuf"; Idx i] = Some (o, t)) <-> i < EDDMAXNR) /\
  ((exists o t, locate boot_params [Fld "edd_mbr_sig_buffer"; Idx i] = Some (o, t)) <-> i < EDD_MBR_SIG_MAX).
Proof.
  assert (G : forall f start k t, find_field true 0 (match boot_params with Struct _ fs => fs | _ => [] end) f = Some (start, Arr k t) ->
    forall i, (exists o t, locate boot_params [Fld f; Idx i] = Some (o, t)) <-> i < k).
  { intros f start k t Hf i. change (locate boot_params [Fld f; Idx i]) with
      (match find_field true 0 (match boot_params with Struct _ fs => fs | _ => [] end) f with
       | Some (o, t) => match locate t [Idx i] with Some (o', t') => Some (o + o', t') | None => None end
       | None => None end). rewrite Hf. cbn [locate]. destruct (N.ltb_spec i k) as [Hlt|Hge].
    - split; [intros _; exact Hlt|intros _; eauto].
    - split; [intros (o & t' & E); discriminate|lia]. }
  intros i. split; [eapply G; vm_compute; reflexivity|]. split; eapply G; vm_compute; reflexivity.
Qed.
(** The identification bytes of any ELF header, by their indices; and the numbers the loader itself goes by. *)
Theorem C119_ident : forall page, 
  (forall i, i < EI_NIDENT -> Layout.get Elf64_Ehdr [Fld "e_ident"; Idx i] page = uint_at page i 1) /\
  (forall i v, In (i, v) [(Constants.EI_MAG0, Constants.ELFMAG0); (Constants.EI_MAG1, Constants.ELFMAG1);
                          (Constants.EI_MAG2, Constants.ELFMAG2); (Constants.EI_MAG3, Constants.ELFMAG3)] ->
     i < SELFMAG /\ option_map n8 (nth_error ELFMAG (N.to_nat i)) = Some v) /\ lenN ELFMAG = SELFMAG.
Proof.
  intros page. split; [|split; [|reflexivity]].
  - intros i Hi. change 1%nat with (N.to_nat 1). apply (get_uint _ _ _ U8). 
    replace (Some (i, U8)) with (Some (0 + size U8 * i + 0, U8)) by (f_equal; f_equal; change (size U8) with 1; lia).
    apply (locate_elem Elf64_Ehdr "e_ident" 16 U8 0 i [] 0 U8); [vm_compute; reflexivity|exact Hi|reflexivity].
  - intros i v [E|[E|[E|[E|[]]]]]; injection E as <- <-; (split; [vm_compute; reflexivity|vm_compute; reflexivity]).
Qed.
Theorem C119_loader :
  [Elf.EI_MAG0; Elf.EI_MAG1; Elf.EI_MAG2; Elf.EI_MAG3; Elf.EI_DATA; Elf.ELFMAG0; Elf.ELFMAG1; Elf.ELFMAG2; Elf.ELFMAG3;
   Elf.ELFDATA2LSB; Elf.PT_LOAD; Elf.PT_NOTE] =
  [Constants.EI_MAG0; Constants.EI_MAG1; Constants.EI_MAG2; Constants.EI_MAG3; Constants.EI_DATA; Constants.ELFMAG0;
   Constants.ELFMAG1; Constants.ELFMAG2; Constants.ELFMAG3; Constants.ELFDATA2LSB; Constants.PT_LOAD; Constants.PT_NOTE].
Proof. reflexivity. Qed.

(** The kinds of PC: the published numbers, one each, all below the advertised count; a plain PC is the default and is 0. *)
Theorem C119_subarch :
  (forall n v, (exists a, subarch_name a = n /\ subarch_u32 a = v) <-> In (n, v) published_subarchs) /\
  (forall v, (exists a, subarch_u32 a = v) <-> v < X86_NR_SUBARCHS) /\
  (forall a b, subarch_u32 a = subarch_u32 b -> a = b) /\ subarch_u32 default_subarch = 0.
Proof.
  split; [|split; [|split; [|reflexivity]]].
  - intros n v. split.
    + intros (a & <- & <-). destruct a; vm_compute; tauto.
    + cbn. intros H. decompose [or] H; try contradiction;
        match goal with E : (_, _) = _ |- _ => injection E as <- <- end;
        [exists X86_SUBARCH_PC|exists X86_SUBARCH_LGUEST|exists X86_SUBARCH_XEN|exists X86_SUBARCH_INTEL_MID|exists X86_SUBARCH_CE4100];
        split; reflexivity.
  - intros v. unfold X86_NR_SUBARCHS. split; [intros (a & <-); destruct a; reflexivity|]. intros H.
    assert (v = 0 \/ v = 1 \/ v = 2 \/ v = 3 \/ v = 4) as [ -> | [ -> | [ -> | [ -> | -> ]]]] by lia;
      [exists X86_SUBARCH_PC|exists X86_SUBARCH_LGUEST|exists X86_SUBARCH_XEN|exists X86_SUBARCH_INTEL_MID|exists X86_SUBARCH_CE4100];
      reflexivity.
  - intros [] []; vm_compute; congruence.
Qed.

(** The hypotheses are met: a kernel that may be loaded above 4 GB and knows 5-level paging, but not kexec. *)
Example C119_applies :
  let word := fold_right (fun fv acc => N.lor acc (snd fv)) 0
                [("XLF_KERNEL_64", XLF_KERNEL_64); ("XLF_CAN_BE_LOADED_ABOVE_4G", XLF_CAN_BE_LOADED_ABOVE_4G); ("XLF_5LEVEL", XLF_5LEVEL)] in
  word = 35 /\ up word XLF_5LEVEL /\ ~ up word XLF_EFI_KEXEC.
Proof.
  cbn zeta. split; [reflexivity|].
  assert (K : forall n v, In (n, v) published_xload -> flag_of published_xload n v).
  { intros n v H. split; [change n with (fst (n, v)); now apply in_map|]. apply constant_in.
    apply (within_spec published_xload); [vm_compute; reflexivity|exact H]. }
  destruct (C119_selection published_xload 16
    [("XLF_KERNEL_64", XLF_KERNEL_64); ("XLF_CAN_BE_LOADED_ABOVE_4G", XLF_CAN_BE_LOADED_ABOVE_4G); ("XLF_5LEVEL", XLF_5LEVEL)]) as [G _].
  { cbn. tauto. }
  { repeat (apply Forall_cons; [apply K; cbn; tauto|]). apply Forall_nil. }
  split.
  - apply (G "XLF_5LEVEL" XLF_5LEVEL); [apply K; cbn; tauto|]. cbn. tauto.
  - intros H. apply (G "XLF_EFI_KEXEC" XLF_EFI_KEXEC) in H; [|apply K; cbn; tauto]. cbn in H. intuition discriminate.
Qed.
Example C119_applies_note : note_is "X86_XSTATE" "LINUX" 514 /\ note_is "PRSTATUS" "CORE" 1.
Proof.
  assert (K : forall n v, existsb (pair_eqb (n, v)) (plain (boot_constants ++ pvh_constants ++ elf_constants)) = true -> constant n v).
  { intros n v H. apply constant_in. apply (within_spec [(n, v)]); [cbn [within forallb]; now rewrite H|left; reflexivity]. }
  split; (split; [cbn; tauto|apply K; vm_compute; reflexivity]).
Qed.
