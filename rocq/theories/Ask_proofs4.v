(** The open programs, run with a source and vm-memory's guest memory, are the functions of the other files. *)
From Verif Require Import Base Base_proofs Io Mem SpecMem Mem_proofs Layout Text Cmdline Loader Elf BzImage Pe BootParams Configurators
  Source Ask.
Local Open Scope list_scope.
Local Open Scope ask_scope.

Lemma exec_bind {W E A B} (wd : world W) (x : prog E A) (f : A -> prog E B) : forall w,
  exec wd (pbind x f) w = match exec wd x w with
                          | (w', Ok a) => exec wd (f a) w'
                          | (w', Err e) => (w', Err e)
                          | (w', Panic q) => (w', Panic q)
                          end.
Proof.
  induction x as [o0|k IH|x k IH|x k IH|x k IH|x k IH|a n k IH|a n k IH|bs a k IH|k IH]; intros w; cbn [pbind exec].
  { destruct o0; reflexivity. }
  all: match goal with |- context [let (_, _) := ?f in _] => destruct f as [w1 g] end; apply IH.
Qed.

Section Vm.
Context {St : Type} (src : source St) (be : backend).
Definition same {E A} (p : prog E A) (g : G E A) : Prop := forall s m s' m' o,
  g s m = (s', m', o) -> o <> Panic OutOfFuel -> exec (vm_world src be) p (s, m) = ((s', m'), o).

Lemma same_done {E A} (o : outcome E A) : same (Done o) (gpure o).
Proof. intros s m s' m' o' H _. injection H as <- <- <-. reflexivity. Qed.
Lemma same_ret {E A} (a : A) : same (E := E) (Done (Ok a)) (gret a).
Proof. exact (same_done (Ok a)). Qed.
Lemma same_fail {E A} (e : E) : same (A := A) (Done (Err e)) (gfail e).
Proof. exact (same_done (Err e)). Qed.
Lemma same_bind {E A B} (x : prog E A) (g : G E A) (f : A -> prog E B) (h : A -> G E B) :
  same x g -> (forall a, same (f a) (h a)) -> same (pbind x f) (gbind g h).
Proof.
  intros H1 H2 s m s' m' o H Ho. rewrite exec_bind. unfold gbind in H. destruct (g s m) as [[s1 m1] o1] eqn:Eg.
  assert (N1 : o1 <> Panic OutOfFuel) by (intros ->; injection H as <- <- <-; contradiction).
  rewrite (H1 _ _ _ _ _ Eg N1). destruct o1 as [a|e|w]; [exact (H2 a _ _ _ _ _ H Ho)|injection H as <- <- <-; reflexivity..].
Qed.
Lemma same_pure {E A B} (o : outcome E A) (f : A -> prog E B) (h : A -> G E B) :
  (forall a, o = Ok a -> same (f a) (h a)) -> same (pbind (Done o) f) (gbind (gpure o) h).
Proof.
  intros H s m s' m' o' K Ho. unfold gbind, gpure in K. destruct o as [a|e|w]; cbn [pbind]; [exact (H a eq_refl _ _ _ _ _ K Ho)|injection K as <- <- <-; reflexivity..].
Qed.
Lemma same_seek_end {E} (e : E) : same (seek_end e) (gio (so_seek_end src) e).
Proof. intros s m s' m' o H _. unfold gio in H. cbn. destruct (so_seek_end src s) as [s1 [x|]]; injection H as <- <- <-; reflexivity. Qed.
Lemma same_seek_to {E} p (e : E) : same (seek_to p e) (gio (fun s => so_seek_start src s p) e).
Proof. intros s m s' m' o H _. unfold gio in H. cbn. destruct (so_seek_start src s p) as [s1 [x|]]; injection H as <- <- <-; reflexivity. Qed.
Lemma same_seek_by {E} d (e : E) : same (seek_by d e) (gio (fun s => so_seek_cur src s d) e).
Proof. intros s m s' m' o H _. unfold gio in H. cbn. destruct (so_seek_cur src s d) as [s1 [x|]]; injection H as <- <- <-; reflexivity. Qed.
Lemma same_read_all {E} n (e : E) : same (read_all n e) (gio (fun s => so_read_exact src s n) e).
Proof. intros s m s' m' o H _. unfold gio in H. cbn. destruct (so_read_exact src s n) as [s1 [x|]]; injection H as <- <- <-; reflexivity. Qed.
Lemma gread_loop_panics fuel : forall s m cur left total s' m' w,
  gread_loop src be fuel s m cur left total = (s', m', Panic w) -> w = OutOfFuel.
Proof.
  induction fuel as [|fuel IH]; intros s m cur left total s' m' w H; cbn [gread_loop] in H; [now injection H|].
  destruct (find_region m cur) as [rg|].
  2:{ exfalso. injection H as _ _ H. destruct be; [destruct (total =? 0)|]; discriminate. }
  destruct (so_read_retry src s _) as [s1 [bs|]]; [|discriminate]. cbv zeta in H.
  destruct (_ =? 0) in H; [discriminate|]. destruct (_ =? left) in H; [discriminate|]. destruct (next_addr cur _) in H; [|discriminate].
  exact (IH _ _ _ _ _ _ _ _ H).
Qed.
Lemma same_place a n e : same (place a n e) (gcopy src be a n e).
Proof.
  intros s m s' m' o H Ho. unfold gcopy in H. cbn. destruct (gread_exact_volatile_from src be s m a n) as [[s1 m1] [x|x|w]] eqn:Eg; injection H as <- <- <-; try reflexivity.
  exfalso. apply Ho. f_equal. unfold gread_exact_volatile_from in Eg.
  destruct (gread_loop src be _ s m a n 0) as [[s2 m2] [y|y|w2]] eqn:El.
  - destruct be, n; try discriminate; destruct (y =? _); discriminate.
  - destruct be, n; discriminate.
  - apply gread_loop_panics in El. subst w2. destruct be, n; try discriminate; injection Eg; congruence.
Qed.

Lemma same_note bld phdr : forall f2 f1 rs nh, phdr_get "p_filesz" phdr <= rs + 12 * N.of_nat f1 ->
  same (note_prog bld (S f1) phdr rs nh) (gnote_loop src bld f2 phdr rs nh).
Proof.
  induction f2 as [|f2 IH]; intros f1 rs nh Hf.
  { intros s m s' m' o H Ho. cbn in H. injection H as <- <- <-. contradiction. }
  cbn [note_prog gnote_loop]. destruct (N.ltb_spec rs (phdr_get "p_filesz" phdr)) as [Hlt|Hle]; cbn [negb]; [|apply same_ret].
  destruct f1 as [|f1]; [lia|].
  apply same_bind; [apply same_read_all|]. intros h. apply same_bind.
  { destruct (_ && _); [|apply same_ret]. apply same_bind; [apply same_read_all|]. intros buf. apply same_ret. }
  intros [|]; [apply same_ret|]. apply same_bind; [apply same_done|]. intros nz. apply same_bind; [apply same_done|]. intros dz.
  destruct (_ || _); [apply same_fail|]. apply same_pure. intros rs' Er.
  apply same_bind; [apply same_done|]. intros t. apply same_bind; [apply same_seek_to|]. intros _. apply IH.
  change (size Elf64_Nhdr) with 12 in Er. unfold checked_add in Er.
  destruct (rs + 12 <? two64); [|discriminate]. destruct (rs + 12 + nz <? two64); [|discriminate]. destruct (rs + 12 + nz + dz <? two64); [|discriminate].
  injection Er as <-. lia.
Qed.
Lemma same_parse bld phdr : same (parse_note_prog bld phdr) (gparse_elf_note src bld phdr).
Proof.
  unfold parse_note_prog, gparse_elf_note. apply same_bind; [apply same_seek_to|]. intros _. apply same_bind.
  { intros s m s' m' o H Ho. refine (same_note bld phdr _ (S (N.to_nat (phdr_get "p_filesz" phdr / 12))) 0 _ _ _ _ _ _ _ H Ho).
    pose proof (N.div_mod (phdr_get "p_filesz" phdr) 12 ltac:(lia)). pose proof (N.mod_lt (phdr_get "p_filesz" phdr) 12 ltac:(lia)). lia. }
  intros [rs nh]. cbv zeta. cbn [fst snd]. destruct (_ <=? _); [apply same_ret|]. apply same_bind; [apply same_done|]. intros nz.
  apply same_bind; [apply same_seek_by|]. intros _. destruct (_ <? 4); [apply same_fail|]. apply same_bind; [apply same_read_all|]. intros d. apply same_ret.
Qed.
Lemma same_read_phdrs : forall n, same (read_phdrs_prog n) (gread_phdrs src n).
Proof.
  induction n as [|n IH]; cbn [read_phdrs_prog gread_phdrs]; [apply same_ret|]. apply same_bind; [apply same_read_all|]. intros b.
  apply same_bind; [exact IH|]. intros bs. apply same_ret.
Qed.
Lemma same_load_phdrs bld off : forall phdrs kend cap, same (load_phdrs_prog bld off phdrs kend cap) (gload_phdrs src bld be off phdrs kend cap).
Proof.
  induction phdrs as [|b bs IH]; intros kend cap; cbn [load_phdrs_prog gload_phdrs]; [apply same_ret|].
  destruct (_ || _).
  - apply same_bind; [|intros c; apply IH]. destruct (_ =? PT_NOTE); [|apply same_ret]. destruct off; [apply same_ret|apply same_parse].
  - apply same_bind; [apply same_seek_to|]. intros _. apply same_bind; [apply same_done|]. intros a. apply same_bind; [apply same_place|]. intros _.
    apply same_bind; [apply same_done|]. intros ke. apply IH.
Qed.
Lemma same_elf bld off highmem : same (elf_prog bld off highmem) (gelf_load src bld be off highmem).
Proof.
  unfold elf_prog, gelf_load. apply same_bind; [apply same_seek_to|]. intros _. apply same_bind; [apply same_read_all|]. intros h.
  apply same_bind; [apply same_done|]. intros _. apply same_bind.
  { destruct highmem as [a|]; [|apply same_ret]. destruct (_ <? a); [apply same_fail|apply same_ret]. }
  intros _. apply same_bind; [apply same_done|]. intros a. apply same_bind; [apply same_seek_to|]. intros _.
  apply same_bind; [apply same_read_phdrs|]. intros bs. apply same_bind; [apply same_load_phdrs|]. intros res. apply same_ret.
Qed.
Lemma same_bz off highmem : same (bz_prog off highmem) (gbz_load src be off highmem).
Proof.
  unfold bz_prog, gbz_load. apply same_bind; [apply same_seek_end|]. intros n. apply same_bind; [apply same_seek_to|]. intros _.
  assert (Hr : forall (f : bytes -> prog lerror load_result) (h : bytes -> G lerror load_result), (forall b, same (f b) (h (patch (default_of setup_header) 0 b))) ->
    same (pbind (read_some (size setup_header) (LBz ReadBzImageHeader)) f)
      (gbind (gio (gread_header src) (LBz ReadBzImageHeader)) h)).
  { intros f h Hfh s m s' m' o H Ho. unfold gbind, gio, gread_header in H. cbn -[size]. destruct (so_read_volatile src s (size setup_header)) as [s1 [x|]].
    - exact (Hfh _ _ _ _ _ _ H Ho).
    - injection H as <- <- <-. reflexivity. }
  apply Hr. intros got. cbv zeta. set (h := patch (default_of setup_header) 0 got). clearbody h. destruct (negb (hdr_get "header" h =? 1400005704)); [apply same_fail|]. destruct (_ || _); [apply same_fail|].
  apply same_bind; [apply same_done|]. intros sz. apply same_bind; [apply same_done|]. intros ks.
  destruct (match highmem with Some x => _ | None => false end); [apply same_fail|]. apply same_bind; [apply same_seek_to|]. intros _.
  apply same_bind; [apply same_place|]. intros _. apply same_bind; [apply same_done|]. intros ke. apply same_ret.
Qed.
Lemma same_pe a off highmem : same (pe_prog a off) (gpe_load src a be off highmem).
Proof.
  unfold pe_prog, gpe_load. apply same_bind; [apply same_seek_end|]. intros n. apply same_bind; [apply same_seek_to|]. intros _.
  apply same_bind; [apply same_read_all|]. intros h. destruct (negb (magic_ok a h)); [apply same_fail|].
  destruct (match off with Some x => _ | None => false end); [apply same_fail|]. apply same_bind; [apply same_done|]. intros x.
  apply same_bind; [apply same_seek_to|]. intros _. apply same_bind; [apply same_place|]. intros _. apply same_bind; [apply same_done|]. intros ke. apply same_ret.
Qed.
Lemma same_dtb addr : same (dtb_prog addr) (gload_dtb src be addr).
Proof.
  unfold dtb_prog, gload_dtb. apply same_bind; [apply same_seek_end|]. intros n. destruct (_ <? n); [apply same_fail|].
  apply same_bind; [apply same_seek_to|]. intros _. apply same_place.
Qed.

(** The other functions have no source. *)
Lemma write_vm {E} bs a (e : E) s m : wf_mem m = true ->
  exec (vm_world src be) (write bs a e) (s, m) =
  ((s, fst (write_slice be m bs a)), match snd (write_slice be m bs a) with Ok _ => Ok tt | _ => Err e end).
Proof.
  intros Hw. cbn. destruct (write_slice be m bs a) as [m1 [x|x|w]]; reflexivity.
Qed.
Lemma block_vm bs a e1 e2 s m : wf_mem m = true ->
  exec (vm_world src be) (fits a (lenN bs) e1 ;;~ write bs a e2) (s, m) =
  ((s, fst (check_and_write be m a bs e1 e2)), snd (check_and_write be m a bs e1 e2)).
Proof.
  intros Hw. unfold check_and_write. cbn. destruct (checked_offset m a (lenN bs)); [|reflexivity].
  cbn. destruct (write_slice be m bs a) as [m1 o] eqn:Ew. pose proof (write_slice_frame _ _ _ _ _ _ Hw Ew) as (_ & [ -> | -> ]); reflexivity.
Qed.
End Vm.
