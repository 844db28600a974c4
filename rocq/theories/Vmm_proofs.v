(** Lemmas about sequences of loading calls. *)
From Verif Require Import Base Io Mem SpecMem Mem_proofs Layout SpecFile File_proofs Text Cmdline Loader Elf SpecElf
  BzImage SpecBz Pe SpecPe BootParams Configurators SpecVmm.
Open Scope loader_scope.

(** [m'] is [m] after these pieces were stored, one after the other. *)
Definition stored (m m' : gmem) (segs : list (N * bytes)) : Prop :=
  mem_is_overlay m m' segs /\ gm_log m' = gm_log m ++ flat_map (fun s => stores (fst s) (snd s)) segs.
(** An access that depends on the region table only: same result and same stores whatever the
    contents of guest memory. *)
Definition blind {A} (op : gmem -> gmem * A) : Prop :=
  forall regs, exists a segs, forall m, regions m = regs -> exists m', op m = (m', a) /\ stored m m' segs.
Definition lblind {A} (x : L A) : Prop :=
  forall r, blind (fun m => match x r m with (r', m', o) => (m', (r', o)) end).

Lemma overlay_refl m : mem_is_overlay m m [].
Proof. split; reflexivity. Qed.
Lemma overlay_trans m m1 m2 s1 s2 : mem_is_overlay m m1 s1 -> mem_is_overlay m1 m2 s2 -> mem_is_overlay m m2 (s1 ++ s2).
Proof.
  intros (R1 & B1) (R2 & B2). split; [congruence|]. intros x. rewrite B2, overlay_app. apply overlay_ext. exact B1.
Qed.
Lemma overlay_store m a bs : mem_is_overlay m (mem_store m a bs) [(a, bs)].
Proof. split; [reflexivity|]. intros x. cbn. apply store_put. Qed.

Lemma stored_refl m : stored m m [].
Proof. split; [apply overlay_refl|]. cbn. now rewrite app_nil_r. Qed.
Lemma stored_trans m m1 m2 s1 s2 : stored m m1 s1 -> stored m1 m2 s2 -> stored m m2 (s1 ++ s2).
Proof.
  intros (O1 & L1) (O2 & L2). split; [exact (overlay_trans _ _ _ _ _ O1 O2)|]. now rewrite L2, L1, flat_map_app, app_assoc.
Qed.
Lemma stored_store m a bs : stored m (mem_store m a bs) [(a, bs)].
Proof. split; [apply overlay_store|]. cbn. now rewrite app_nil_r. Qed.

Lemma blind_const {A} (a : A) : blind (fun m => (m, a)).
Proof. intros regs. exists a, []. intros m _. exists m. split; [reflexivity|apply stored_refl]. Qed.

Lemma blind_regions {A} (f : list region -> gmem -> gmem * A) :
  (forall regs, blind (f regs)) -> blind (fun m => f (regions m) m).
Proof. intros H regs. destruct (H regs regs) as (a & segs & Hm). exists a, segs. intros m E. rewrite E. now apply Hm. Qed.

Lemma blind_bind {A B} (x : gmem -> gmem * A) (k : A -> gmem -> gmem * B) :
  blind x -> (forall a, blind (k a)) -> blind (fun m => match x m with (m', a) => k a m' end).
Proof.
  intros Hx Hk regs. destruct (Hx regs) as (a & s1 & H1). destruct (Hk a regs) as (b & s2 & H2).
  exists b, (s1 ++ s2). intros m E. destruct (H1 m E) as (m1 & E1 & O1). rewrite E1.
  destruct (H2 m1) as (m2 & E2 & O2). { destruct O1 as ((R & _) & _). congruence. }
  exists m2. split; [exact E2|]. exact (stored_trans _ _ _ _ _ O1 O2).
Qed.

Lemma blind_ext {A} (f g : gmem -> gmem * A) : (forall m, f m = g m) -> blind f -> blind g.
Proof. intros E H regs. destruct (H regs) as (a & s & Hm). exists a, s. intros m R. rewrite <- E. now apply Hm. Qed.

Lemma write_loop_blind fuel : forall cur data total, blind (fun m => write_loop fuel m cur data total).
Proof.
  induction fuel as [|fuel IH]; intros cur data total; [apply blind_const|]. intros regs.
  destruct (find (fun r => region_has r cur) regs) as [r|] eqn:F.
  - set (n := N.min (r_base r + r_len r - cur) (lenN data)).
    destruct (n =? 0) eqn:E0; [|destruct (n =? lenN data) eqn:E1; [|destruct (next_addr cur n) as [cur'|] eqn:E2]].
    4:{ exists (Err tt), [(cur, slice data 0 n)]. intros m R. exists (mem_store m cur (slice data 0 n)). split; [|apply stored_store].
        cbn [write_loop]. unfold find_region. rewrite R, F. cbv zeta. fold n. now rewrite E0, E1, E2. }
    + exists (Ok total), [(cur, slice data 0 n)]. intros m R. exists (mem_store m cur (slice data 0 n)). split; [|apply stored_store].
      cbn [write_loop]. unfold find_region. rewrite R, F. cbv zeta. fold n. now rewrite E0.
    + exists (Ok (total + n)), [(cur, slice data 0 n)]. intros m R. exists (mem_store m cur (slice data 0 n)). split; [|apply stored_store].
      cbn [write_loop]. unfold find_region. rewrite R, F. cbv zeta. fold n. now rewrite E0, E1.
    + destruct (IH cur' (slice data n (lenN data - n)) (total + n) regs) as (a & s & H).
      exists a, ((cur, slice data 0 n) :: s). intros m R.
      destruct (H (mem_store m cur (slice data 0 n)) R) as (m' & E & O). exists m'. split.
      * cbn [write_loop]. unfold find_region. rewrite R, F. cbv zeta. fold n. now rewrite E0, E1, E2.
      * exact (stored_trans _ _ _ [_] _ (stored_store _ _ _) O).
  - exists (if total =? 0 then Err tt else Ok total), []. intros m R. exists m. split; [|apply stored_refl].
    cbn [write_loop]. unfold find_region. now rewrite R, F.
Qed.

Lemma write_slice_blind be data a : blind (fun m => write_slice be m data a).
Proof.
  assert (H : blind (fun m => match write_loop (S (length data)) m a data 0 with
      | (m', Ok n) => (m', if n =? lenN data then Ok tt else Err tt)
      | (m', Err e) => (m', Err e)
      | (m', Panic p) => (m', Panic p)
      end)).
  { apply (blind_ext (fun m => match write_loop (S (length data)) m a data 0 with (m', o) =>
      (m', match o with Ok n => if n =? lenN data then Ok tt else Err tt | Err e => Err e | Panic p => Panic p end) end)).
    { intros m. destruct (write_loop _ _ _ _ _) as [m' [n|e|p]]; reflexivity. }
    apply blind_bind; [apply write_loop_blind|intros o; apply blind_const]. }
  destruct be; [exact H|]. destruct data; [apply blind_const|exact H].
Qed.

Lemma read_loop_blind be fuel : forall r cur left total,
  blind (fun m => match read_loop be fuel r m cur left total with (r', m', o) => (m', (r', o)) end).
Proof.
  induction fuel as [|fuel IH]; intros r cur left total; [apply blind_const|]. intros regs. cbn [read_loop].
  destruct (find (fun r => region_has r cur) regs) as [rg|] eqn:F.
  2:{ eexists (r, match be with TryAccess => if total =? 0 then Err tt else Ok total | GetSlices => Err tt end), [].
      intros m R. exists m. split; [|apply stored_refl]. unfold find_region. now rewrite R, F. }
  set (n := N.min (r_base rg + r_len rg - cur) left).
  destruct (read_volatile r n) as [r1 [bs|]] eqn:RV.
  2:{ exists (r1, Err tt), []. intros m R. exists m. split; [|apply stored_refl].
      unfold find_region. rewrite R, F. cbv zeta. fold n. now rewrite RV. }
  set (adv := match be with TryAccess => lenN bs | GetSlices => n end).
  destruct (adv =? 0) eqn:E0; [|destruct (adv =? left) eqn:E1; [|destruct (next_addr cur adv) as [cur'|] eqn:E2]].
  - exists (r1, Ok total), [(cur, bs)]. intros m R. exists (mem_store m cur bs). split; [|apply stored_store].
    unfold find_region. rewrite R, F. cbv zeta. fold n. rewrite RV. fold adv. now rewrite E0.
  - exists (r1, Ok (total + lenN bs)), [(cur, bs)]. intros m R. exists (mem_store m cur bs). split; [|apply stored_store].
    unfold find_region. rewrite R, F. cbv zeta. fold n. rewrite RV. fold adv. now rewrite E0, E1.
  - destruct (IH r1 cur' (left - adv) (total + lenN bs) regs) as (a & s & H).
    exists a, ((cur, bs) :: s). intros m R. destruct (H (mem_store m cur bs) R) as (m' & E & O). exists m'. split.
    + unfold find_region. rewrite R, F. cbv zeta. fold n. rewrite RV. fold adv. now rewrite E0, E1, E2.
    + exact (stored_trans _ _ _ [_] _ (stored_store _ _ _) O).
  - exists (r1, Err tt), [(cur, bs)]. intros m R. exists (mem_store m cur bs). split; [|apply stored_store].
    unfold find_region. rewrite R, F. cbv zeta. fold n. rewrite RV. fold adv. now rewrite E0, E1, E2.
Qed.

Lemma rev_blind be a count : forall r,
  blind (fun m => match read_exact_volatile_from be r m a count with (r', m', o) => (m', (r', o)) end).
Proof.
  intros r.
  assert (H : blind (fun m => match (match read_loop be (S (length (rd_data r) + length (regions m))) r m a count 0 with
      | (r', m', Ok n) => (r', m', if n =? count then Ok tt else Err tt)
      | (r', m', Err e) => (r', m', Err e)
      | (r', m', Panic p) => (r', m', Panic p)
      end) with (r', m', o) => (m', (r', o)) end)).
  { apply (blind_regions (fun regs m => match (match read_loop be (S (length (rd_data r) + length regs)) r m a count 0 with
      | (r', m', Ok n) => (r', m', if n =? count then Ok tt else Err tt)
      | (r', m', Err e) => (r', m', Err e)
      | (r', m', Panic p) => (r', m', Panic p)
      end) with (r', m', o) => (m', (r', o)) end)). intros regs.
    apply (blind_ext (fun m => match (match read_loop be (S (length (rd_data r) + length regs)) r m a count 0 with (r', m', o) => (m', (r', o)) end)
      with (m', ro) => (m', (fst ro, match snd ro with Ok n => if n =? count then Ok tt else Err tt | Err e => Err e | Panic p => Panic p end)) end)).
    { intros m. destruct (read_loop _ _ _ _ _ _ _) as [[r' m'] [n|e|p]]; reflexivity. }
    apply blind_bind; [apply read_loop_blind|intros o; apply blind_const]. }
  unfold read_exact_volatile_from. destruct be; [exact H|]. destruct count; [apply blind_const|exact H].
Qed.

(** ** The loader monad *)
Lemma lblind_ret {A} (a : A) : lblind (lret a).
Proof. intros r. apply blind_const. Qed.
Lemma lblind_fail {A} e : lblind (@lfail A e).
Proof. intros r. apply blind_const. Qed.
Lemma lblind_pure {A} (o : outcome lerror A) : lblind (lpure o).
Proof. intros r. apply blind_const. Qed.
Lemma lblind_io {A} (op : reader -> reader * option A) e : lblind (lio op e).
Proof.
  intros r. unfold lio. destruct (op r) as [r' [a|]]; apply blind_const.
Qed.
Lemma lblind_bind {A B} (x : L A) (k : A -> L B) : lblind x -> (forall a, lblind (k a)) -> lblind (lbind x k).
Proof.
  intros Hx Hk r.
  apply (blind_ext (fun m => match (match x r m with (r', m', o) => (m', (r', o)) end) with
    (m', ro) => (fun ro m' => match snd ro with
       | Ok a => match k a (fst ro) m' with (r2, m2, o) => (m2, (r2, o)) end
       | Err e => (m', (fst ro, Err e))
       | Panic p => (m', (fst ro, Panic p))
       end) ro m' end)).
  { intros m. unfold lbind. destruct (x r m) as [[r' m'] [a|e|p]]; reflexivity. }
  apply blind_bind; [apply Hx|]. intros [r' [a|e|p]]; cbn; [apply Hk|apply blind_const|apply blind_const].
Qed.
Lemma lblind_copy be a n e : lblind (lcopy be a n e).
Proof.
  intros r.
  apply (blind_ext (fun m => match (match read_exact_volatile_from be r m a n with (r', m', o) => (m', (r', o)) end) with
    (m', ro) => (m', (fst ro, match snd ro with Ok _ => Ok tt | Err _ => Err e | Panic p => Panic p end)) end)).
  { intros m. unfold lcopy. destruct (read_exact_volatile_from be r m a n) as [[r' m'] [x|x|p]]; reflexivity. }
  apply blind_bind; [apply rev_blind|intros o; apply blind_const].
Qed.
Lemma lblind_reader {A} (x : reader -> L A) : (forall r, lblind (x r)) -> lblind (fun r => x r r).
Proof. intros H r. apply H. Qed.

Ltac lb :=
  repeat first
    [ apply lblind_ret | apply lblind_fail | apply lblind_pure | apply lblind_io | apply lblind_copy
    | apply lblind_bind; [|intros ?]
    | match goal with |- lblind (match ?x with _ => _ end) => destruct x end
    | assumption | progress cbv zeta ].

Lemma note_loop_blind bld phdr fuel : forall rs nhdr, lblind (note_loop bld fuel phdr rs nhdr).
Proof. induction fuel as [|fuel IH]; intros rs nhdr; cbn [note_loop]; lb. apply IH. Qed.
Lemma parse_elf_note_blind bld phdr : lblind (parse_elf_note bld phdr).
Proof.
  unfold parse_elf_note. lb.
  apply (lblind_reader (fun r => note_loop bld (note_fuel r) phdr 0 (default_of Elf64_Nhdr))). intros r. apply note_loop_blind.
Qed.
Lemma read_phdrs_blind n : lblind (read_phdrs n).
Proof. induction n; cbn [read_phdrs]; lb. Qed.
Lemma load_phdrs_blind bld be off ps : forall kend cap, lblind (load_phdrs bld be off ps kend cap).
Proof.
  induction ps as [|p ps IH]; intros kend cap; cbn [load_phdrs].
  all: repeat first [apply IH | apply parse_elf_note_blind | apply lblind_ret | apply lblind_pure | apply lblind_io | apply lblind_copy
    | match goal with |- lblind (match ?x with _ => _ end) => destruct x end | apply lblind_bind; [|intros ?]].
Qed.
Lemma elf_load_blind bld be off h : lblind (elf_load bld be off h).
Proof. unfold elf_load. 
  all: repeat first [apply read_phdrs_blind | apply load_phdrs_blind | apply lblind_ret | apply lblind_fail | apply lblind_pure | apply lblind_io
    | match goal with |- lblind (match ?x with _ => _ end) => destruct x end | apply lblind_bind; [|intros ?]]. Qed.
Lemma bz_load_blind be off h : lblind (bz_load be off h).
Proof. unfold bz_load. lb. Qed.
Lemma pe_load_blind a be off h : lblind (pe_load a be off h).
Proof. unfold pe_load. lb. Qed.
Lemma load_dtb_blind be a : lblind (load_dtb be a).
Proof. unfold load_dtb. lb. Qed.

(** ** Command line and boot parameters *)
Definition by_regions {B} (p : gmem -> B) : Prop := forall m m', regions m = regions m' -> p m = p m'.
Lemma blind_case {A B} (p : gmem -> B) (k : B -> gmem -> gmem * A) :
  by_regions p -> (forall b, blind (k b)) -> blind (fun m => k (p m) m).
Proof.
  intros Hp Hk regs. destruct (Hk (p (mkMem regs (fun _ => x00))) regs) as (a & s & H). exists a, s. intros m R.
  rewrite (Hp m (mkMem regs (fun _ => x00)) R). now apply H.
Qed.
Lemma last_addr_by_regions : by_regions last_addr.
Proof. intros m m' E. unfold last_addr. now rewrite E. Qed.
Lemma checked_offset_by_regions a n : by_regions (fun m => checked_offset m a n).
Proof. intros m m' E. unfold checked_offset, find_region. now rewrite E. Qed.

Lemma blind_after {A B} (x : gmem -> gmem * A) (f : A -> B) : blind x -> blind (fun m => match x m with (m', a) => (m', f a) end).
Proof. intros H. apply (blind_bind x (fun a m => (m, f a))); [exact H|]. intros a. apply blind_const. Qed.

Lemma load_cmdline_blind bld be addr c : blind (fun m => load_cmdline bld be m addr c).
Proof.
  unfold load_cmdline. destruct (as_cstring c) as [s|e|p]; [|apply blind_const|apply blind_const]. cbv zeta.
  destruct (usub bld _ 1) as [d|e|p]; [|apply blind_const|apply blind_const].
  destruct (checked_add addr d) as [e|]; [|apply blind_const].
  apply (blind_case (fun m => last_addr m <? e) (fun b m => if b then (m, Err CommandLineOverflow) else
    match write_slice be m (bytes_with_nul s) addr with
                   | (m', Ok _) => (m', Ok tt)
                   | (m', Err _) => (m', Err CommandLineCopy)
                   | (m', Panic p) => (m', Panic p)
                   end)).
  { intros m m' E. now rewrite (last_addr_by_regions m m' E). }
  intros [|]; [apply blind_const|].
  eapply blind_ext; [|apply (blind_after _ (fun o => match o with Ok _ => Ok tt | Err _ => Err CommandLineCopy | Panic p => Panic p end)
    (write_slice_blind be (bytes_with_nul s) addr))].
  intros m. cbv beta. destruct (write_slice be m _ addr) as [m' [u|e'|p]]; reflexivity.
Qed.

Lemma check_and_write_blind be a bs e1 e2 : blind (fun m => check_and_write be m a bs e1 e2).
Proof.
  apply (blind_case (fun m => checked_offset m a (lenN bs)) (fun b m => match b with
    | None => (m, Err e1)
    | Some _ => match write_slice be m bs a with (m', Ok _) => (m', Ok tt) | (m', Err _) => (m', Err e2) | (m', Panic p) => (m', Panic p) end end)).
  { apply checked_offset_by_regions. }
  intros [x|]; [|apply blind_const].
  eapply blind_ext; [|apply (blind_after _ (fun o => match o with Ok _ => Ok tt | Err _ => Err e2 | Panic p => Panic p end) (write_slice_blind be bs a))].
  intros m. cbv beta. destruct (write_slice be m bs a) as [m' [u|e'|p]]; reflexivity.
Qed.

Lemma pvh_write_blind be p : blind (fun m => pvh_write_bootparams be p m).
Proof.
  unfold pvh_write_bootparams. destruct (sections p) as [v|]; [|apply blind_const]. destruct (sections_start p) as [s|]; [|apply blind_const].
  eapply blind_ext; [|apply (blind_bind _ (fun o m1 => match o with
     | Ok _ => match check_and_write be m1 (header_start p) (header p) (BPvh StartInfoPastRamEnd) (BPvh StartInfoSetup) with
       | (m2, o2) => (fun o2 m2 => match o2 with Ok _ => match modules p with
          | None => (m2, Ok tt)
          | Some mods =>
              match modules_start p with
              | None => (m2, Err (BPvh ModulesAddressMissing))
              | Some modules_addr =>
                  match write_slice be m2 mods modules_addr with
                  | (m3, o3) => (m3, match o3 with Ok _ => Ok tt | Err _ => Err (BPvh ModulesSetup) | Panic q => Panic q end)
                  end
              end
          end | o2 => (m2, o2) end) o2 m2 end
     | o => (m1, o) end) (check_and_write_blind be s v (BPvh MemmapTablePastRamEnd) (BPvh MemmapTableSetup)))].
  { intros m. cbv beta. destruct (check_and_write be m s v _ _) as [m1 [u|e|q]]; try reflexivity.
    destruct (check_and_write be m1 _ _ _ _) as [m2 [u2|e|q]]; try reflexivity.
    destruct (modules p); [|reflexivity]. destruct (modules_start p); [|reflexivity].
    destruct (write_slice _ _ _ _) as [m3 [u3|e|q]]; reflexivity. }
  intros [u|e|q]; [|apply blind_const|apply blind_const].
  apply blind_bind; [apply check_and_write_blind|]. intros [u2|e|q]; [|apply blind_const|apply blind_const].
  destruct (modules p); [|apply blind_const]. destruct (modules_start p); [|apply blind_const].
  apply blind_after. apply write_slice_blind.
Qed.

Lemma perform_blind bld be t : blind (perform bld be t).
Proof.
  destruct t; unfold perform.
  - eapply blind_ext; [|apply (blind_after _ (fun ro => Loaded (snd ro)) (elf_load_blind bld be off highmem image))].
    intros m. cbv beta. destruct (elf_load _ _ _ _ _ _) as [[r' m'] o]. reflexivity.
  - eapply blind_ext; [|apply (blind_after _ (fun ro => Loaded (snd ro)) (bz_load_blind be off highmem image))].
    intros m. cbv beta. destruct (bz_load _ _ _ _ _) as [[r' m'] o]. reflexivity.
  - eapply blind_ext; [|apply (blind_after _ (fun ro => Loaded (snd ro)) (pe_load_blind a be off highmem image))].
    intros m. cbv beta. destruct (pe_load _ _ _ _ _ _) as [[r' m'] o]. reflexivity.
  - eapply blind_ext; [|apply (blind_after _ (fun ro => Done (snd ro)) (load_dtb_blind be addr image))].
    intros m. cbv beta. destruct (load_dtb _ _ _ _) as [[r' m'] o]. reflexivity.
  - apply (blind_after _ Done), load_cmdline_blind.
  - apply (blind_after _ Written), check_and_write_blind.
  - apply (blind_after _ Written), check_and_write_blind.
  - apply (blind_after _ Written), pvh_write_blind.
Qed.
