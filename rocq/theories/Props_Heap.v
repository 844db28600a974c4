(** * Props_Heap: property C105.  Loading and building take little host memory, whatever the image or the capacity says. *)
From Verif Require Import Base Base_proofs Io Mem SpecMem SpecFile File_proofs Layout Text Cmdline SpecCmdline Text_proofs Cmdline_proofs Cmdline_proofs2
  Loader Elf SpecElf Source RawIo BootParams SpecBoot Demo_elf Heap.
Local Open Scope list_scope.

(** ** The vector of program headers *)
(** The room doubles from 4 on, and only when it is full. *)
Definition heap_ok (h : heap) : Prop :=
  h_len h <= h_room h /\
  ((h_room h = 0 /\ h_peak h = 0) \/
   (h_room h = 4 /\ 1 <= h_len h /\ h_peak h = 224) \/
   (exists j, h_room h = 8 * 2 ^ j /\ 4 * 2 ^ j < h_len h /\ h_peak h = 84 * h_room h)).

Lemma push_ok h : heap_ok h -> heap_ok (push h) /\ h_len (push h) = h_len h + 1.
Proof.
  intros (H1 & H2). split; [|reflexivity]. unfold push, reserve, heap_ok. cbn [h_len h_room h_peak].
  change (size Elf64_Phdr) with 56 in *.
  destruct (N.ltb_spec (h_room h - h_len h) 1) as [L|L].
  - assert (E : h_len h = h_room h) by lia. rewrite E in *.
    destruct (N.eqb_spec (N.max (N.max (2 * h_room h) (h_room h + 1)) 4) (h_room h)) as [X|X]; [lia|]. split; [lia|]. right.
    destruct H2 as [(R & P)|[(R & _ & P)|(j & R & _ & P)]]; rewrite R, P in *.
    + left. lia.
    + right. exists 0. change (2 ^ 0) with 1. lia.
    + right. exists (N.succ j). rewrite N.pow_succ_r'. pose proof (N.pow_nonzero 2 j ltac:(lia)). lia.
  - rewrite N.eqb_refl. split; [lia|]. right. destruct H2 as [(R & P)|[(R & _ & P)|(j & R & Hl & P)]].
    + lia.
    + left. lia.
    + right. exists j. lia.
Qed.
Lemma heap_bounds h : heap_ok h -> h_peak h <= 168 * h_len h + 56 /\ (h_len h < 65536 -> h_peak h <= 5505024).
Proof.
  intros (H1 & [(R & P)|[(R & H2 & P)|(j & R & H2 & P)]]).
  - lia.
  - lia.
  - split; [lia|]. intros H3. assert (j < 14).
    { destruct (N.lt_ge_cases j 14) as [|G]; [assumption|]. pose proof (N.pow_le_mono_r 2 14 j ltac:(lia) G). change (2 ^ 14) with 16384 in *. lia. }
    pose proof (N.pow_le_mono_r 2 j 13 ltac:(lia) ltac:(lia)) as Q. change (2 ^ 13) with 8192 in Q. lia.
Qed.

Section Generic.
Context {S : Type} (src : source S).

(** Forgetting the heap. *)
Definition erases {A} (x : @H S A) (y : @G S lerror A) : Prop :=
  forall s m h, match x s m h with (s', m', _, o) => (s', m', o) end = y s m.
Lemma erases_step {A} (y : @G S lerror A) : erases (hstep y) y.
Proof. intros s m h. unfold hstep. destruct (y s m) as [[s' m'] o]. reflexivity. Qed.
Lemma erases_bind {A B} (x : @H S A) y (f : A -> @H S B) g :
  erases x y -> (forall a, erases (f a) (g a)) -> erases (hbind x f) (gbind y g).
Proof.
  intros Hx Hf s m h. unfold hbind, gbind. specialize (Hx s m h). destruct (x s m h) as [[[s' m'] h'] [a|e|p]]; rewrite <- Hx; [apply Hf|reflexivity|reflexivity].
Qed.
Lemma erases_phdrs n : forall acc, erases (hread_phdrs src n acc) (gbind (gread_phdrs src n) (fun l => gret (acc ++ l))).
Proof.
  induction n as [|n IH]; intros acc s m h.
  - cbn [hread_phdrs gread_phdrs]. unfold hstep, gret, gbind. rewrite app_nil_r. reflexivity.
  - cbn [hread_phdrs gread_phdrs]. unfold hbind, hstep, gbind, gio, hpush.
    destruct (so_read_exact src s (size Elf64_Phdr)) as [s1 [b|]]; [|reflexivity].
    specialize (IH (acc ++ [b]) s1 m (push h)). unfold gbind, gret in *.
    destruct (hread_phdrs src n (acc ++ [b]) s1 m (push h)) as [[[s2 m2] h2] o].
    destruct (gread_phdrs src n s1 m) as [[s3 m3] [l|e|p]]; inversion IH; subst; try reflexivity.
    rewrite <- app_assoc. reflexivity.
Qed.
Lemma gbind_ret {A} (x : @G S lerror A) : forall s m, gbind x (fun l => gret l) s m = x s m.
Proof. intros s m. unfold gbind, gret. destruct (x s m) as [[s' m'] [a|e|p]]; reflexivity. Qed.
Lemma erases_elf bld be off hm : erases (helf_load src bld be off hm) (gelf_load src bld be off hm).
Proof.
  unfold helf_load, gelf_load.
  apply erases_bind; [apply erases_step|intros _]. apply erases_bind; [apply erases_step|intros ehdr].
  apply erases_bind; [apply erases_step|intros _]. apply erases_bind; [apply erases_step|intros _].
  apply erases_bind; [apply erases_step|intros load]. apply erases_bind; [apply erases_step|intros _].
  apply erases_bind; [|intros phdrs; apply erases_bind; [apply erases_step|intros res; apply erases_step]].
  intros s m h. rewrite (erases_phdrs _ [] s m h). apply gbind_ret.
Qed.

(** What holds of the heap afterwards. *)
Definition keeps {A} (P : heap -> Prop) (Q : heap -> Prop) (x : @H S A) : Prop :=
  forall s m h, P h -> match x s m h with (_, _, h', _) => Q h' end.
Lemma keeps_step {A} P (y : @G S lerror A) : keeps P P (hstep y).
Proof. intros s m h Hp. unfold hstep. destruct (y s m) as [[s' m'] o]. exact Hp. Qed.
Lemma keeps_bind {A B} (P Q R : heap -> Prop) (x : @H S A) (f : A -> @H S B) :
  keeps P Q x -> (forall h, Q h -> R h) -> (forall a, keeps Q R (f a)) -> keeps P R (hbind x f).
Proof.
  intros Hx Hqr Hf s m h Hp. unfold hbind. specialize (Hx s m h Hp). destruct (x s m h) as [[[s' m'] h'] [a|e|p]]; [apply Hf; exact Hx| |]; auto.
Qed.
Lemma keeps_phdrs n : forall k acc, keeps (fun h => heap_ok h /\ h_len h = k) (fun h => heap_ok h /\ h_len h <= k + N.of_nat n) (hread_phdrs src n acc).
Proof.
  induction n as [|n IH]; intros k acc s m h [Hp Hk]; cbn [hread_phdrs].
  - unfold hstep, gret. split; [exact Hp|lia].
  - unfold hbind, hstep, gio, hpush. destruct (so_read_exact src s (size Elf64_Phdr)) as [s1 [b|]]; [|split; [exact Hp|lia]].
    destruct (push_ok h Hp) as [P1 P2]. assert (P3 : h_len (push h) = k + 1) by (rewrite P2, Hk; reflexivity). specialize (IH (k + 1) (acc ++ [b]) s1 m (push h) (conj P1 P3)).
    destruct (hread_phdrs src n (acc ++ [b]) s1 m (push h)) as [[[s2 m2] h2] o]. destruct IH as [I1 I2]. split; [exact I1|lia].
Qed.
Lemma keeps_elf bld be off hm : keeps (fun h => h = no_heap) (fun h => heap_ok h /\ h_len h < 65536) (helf_load src bld be off hm).
Proof.
  assert (Z : forall h, h = no_heap -> heap_ok h /\ h_len h < 65536).
  { intros h ->. split; [|reflexivity]. unfold heap_ok, no_heap. cbn [h_len h_room h_peak]. split; [lia|left; auto]. }
  unfold helf_load.
  eapply keeps_bind; [apply keeps_step|exact Z|intros _]. eapply keeps_bind; [apply keeps_step|exact Z|intros ehdr].
  eapply keeps_bind; [apply keeps_step|exact Z|intros _]. eapply keeps_bind; [apply keeps_step|exact Z|intros _].
  eapply keeps_bind; [apply keeps_step|exact Z|intros load]. eapply keeps_bind; [apply keeps_step|exact Z|intros _].
  apply keeps_bind with (Q := fun h => heap_ok h /\ h_len h < 65536); [|auto|].
  2:{ intros phdrs. apply keeps_bind with (Q := fun h => heap_ok h /\ h_len h < 65536); [apply keeps_step|auto|intros res; apply keeps_step]. }
  intros s m h ->. pose proof (keeps_phdrs (N.to_nat (ehdr_get "e_phnum" ehdr)) 0 [] s m no_heap) as K.
  destruct (hread_phdrs src _ [] s m no_heap) as [[[s2 m2] h2] o]. destruct K as [K1 K2].
  { split; [|reflexivity]. apply (Z no_heap eq_refl). }
  split; [exact K1|].
  assert (B : ehdr_get "e_phnum" ehdr < 65536).
  { unfold ehdr_get, get. change (locate Elf64_Ehdr [Fld "e_phnum"%string]) with (Some (56, U16)). cbv iota beta.
    eapply N.lt_le_trans; [apply le_dec_bound|]. change 65536 with (256 ^ 2). apply N.pow_le_mono_r; [lia|].
    rewrite lenN_slice. change (size U16) with 2. lia. }
  lia.
Qed.
End Generic.


(** ** On a file: at most as many headers as the file can hold *)
Definition keeps2 {A} (P Q : reader -> heap -> Prop) (x : @H reader A) : Prop :=
  forall s m h, P s h -> match x s m h with (s', _, h', _) => Q s' h' end.
Lemma keeps2_bind {A B} (P Q R : reader -> heap -> Prop) (x : @H reader A) (f : A -> @H reader B) :
  keeps2 P Q x -> (forall s h, Q s h -> R s h) -> (forall a, keeps2 Q R (f a)) -> keeps2 P R (hbind x f).
Proof.
  intros Hx Hqr Hf s m h Hp. unfold hbind. specialize (Hx s m h Hp). destruct (x s m h) as [[[s' m'] h'] [a|e|p]]; [apply Hf; exact Hx| |]; auto.
Qed.
Lemma keeps2_io {A} f (op : reader -> reader * option A) e : (forall r, rd_data (fst (op r)) = rd_data r) ->
  keeps2 (fun s h => rd_data s = f /\ h = no_heap) (fun s h => rd_data s = f /\ h = no_heap) (hstep (gio op e)).
Proof.
  intros Ho s m h [D ->]. unfold hstep, gio. specialize (Ho s). destruct (op s) as [s' [a|]]; cbn [fst] in Ho; split; congruence.
Qed.
Lemma keeps2_pure {A} f (o : outcome lerror A) :
  keeps2 (fun s h => rd_data s = f /\ h = no_heap) (fun s h => rd_data s = f /\ h = no_heap) (hstep (gpure o)).
Proof. intros s m h H. exact H. Qed.
Lemma seek_data r p : rd_data (fst (seek_start r p)) = rd_data r.
Proof. unfold seek_start. destruct (rd_fault r Seeking (rd_ops r)); [reflexivity|]. destruct (rd_maxpos r <? p); reflexivity. Qed.
Lemma exact_data r n : rd_data (fst (read_exact r n)) = rd_data r.
Proof. unfold read_exact. destruct (rd_fault r Reading (rd_ops r)); [reflexivity|]. destruct (rd_len r <? rd_pos r + n); reflexivity. Qed.

Lemma phdrs_in_file f n : forall acc, keeps2 (fun s h => rd_data s = f /\ 56 * h_len h <= rd_pos s /\ 56 * h_len h <= lenN f)
  (fun _ h => 56 * h_len h <= lenN f) (hread_phdrs reader_source n acc).
Proof.
  induction n as [|n IH]; intros acc s m h (D & P & L); cbn [hread_phdrs].
  - exact L.
  - unfold hbind, hstep, gio, hpush. cbn [so_read_exact reader_source]. unfold read_exact. change (size Elf64_Phdr) with 56.
    destruct (rd_fault s Reading (rd_ops s)); [exact L|]. unfold rd_len. rewrite D.
    destruct (N.ltb_spec (lenN f) (rd_pos s + 56)) as [X|X]; [exact L|].
    apply IH. unfold rd_step, push. cbn [rd_data rd_pos h_len]. split; [exact D|]. lia.
Qed.
Lemma elf_in_file f bld be off hm : keeps2 (fun s h => rd_data s = f /\ h = no_heap) (fun _ h => 56 * h_len h <= lenN f)
  (helf_load reader_source bld be off hm).
Proof.
  assert (Z : forall s h, rd_data s = f /\ h = no_heap -> 56 * h_len h <= lenN f).
  { intros s h [_ ->]. cbn. lia. }
  unfold helf_load.
  eapply keeps2_bind; [apply keeps2_io; intros r; apply seek_data|exact Z|intros _].
  eapply keeps2_bind; [apply keeps2_io; intros r; apply exact_data|exact Z|intros ehdr].
  eapply keeps2_bind; [apply keeps2_pure|exact Z|intros _].
  eapply keeps2_bind; [|exact Z|intros _].
  { destruct hm as [a|]; [destruct (_ <? a)|]; intros s m h H; exact H. }
  eapply keeps2_bind; [apply keeps2_pure|exact Z|intros load].
  eapply keeps2_bind; [apply keeps2_io; intros r; apply seek_data|exact Z|intros _].
  apply keeps2_bind with (Q := fun _ h => 56 * h_len h <= lenN f); [|auto|].
  - intros s m h [D ->]. apply phdrs_in_file. split; [exact D|]. cbn. lia.
  - intros phdrs s m h L. unfold hbind, hstep. destruct (gload_phdrs _ _ _ _ _ _ _ s m) as [[s1 m1] [r|e|p]]; exact L.
Qed.

(** ** The strings of a command line *)
Definition room_ok (room : N) (t : text) : Prop := str_len t <= room <= N.max 8 (2 * str_len t).
Lemma reserve_ok room len add : len <= room <= N.max 8 (2 * len) -> len + add <= reserve 8 room len add <= N.max 8 (2 * (len + add)).
Proof. intros H. unfold reserve. destruct (N.ltb_spec (room - len) add); lia. Qed.
Lemma appended_ok room old t : room_ok room old -> room_ok (appended room old (add_arg old t)) (add_arg old t).
Proof.
  unfold room_ok. intros H. rewrite add_arg_len. unfold appended. rewrite add_arg_len.
  destruct old as [|c r].
  - change (str_len (@nil N) =? 0) with true. cbv iota. change (str_len (@nil N)) with 0 in *.
    replace (0 + 0 + str_len t) with (str_len t) by lia.
    pose proof (reserve_ok room 0 (str_len t) H). lia.
  - destruct (N.eqb_spec (str_len (c :: r)) 0) as [X|_]; [apply str_len_zero in X; discriminate|].
    destruct (N.eqb_spec (str_len (c :: r) + 1 + str_len t) (str_len (c :: r))) as [X|_]; [lia|].
    pose proof (reserve_ok room (str_len (c :: r)) 1 H) as H1.
    pose proof (reserve_ok _ (str_len (c :: r) + 1) (str_len (c :: r) + 1 + str_len t - (str_len (c :: r) + 1)) H1) as H2.
    replace (str_len (c :: r) + 1 + (str_len (c :: r) + 1 + str_len t - (str_len (c :: r) + 1))) with (str_len (c :: r) + 1 + str_len t) in H2 by lia. exact H2.
Qed.
Lemma appended_same room t : room_ok room t -> room_ok (appended room t t) t.
Proof.
  unfold room_ok, appended. intros H. rewrite N.eqb_refl. destruct (N.eqb_spec (str_len t) 0) as [E|_]; [|exact H].
  rewrite E in *. unfold reserve. destruct (N.ltb_spec (room - 0) 0); lia.
Qed.
Definition rooms_ok (x : cmdline * rooms) : Prop := room_ok (boot_room (snd x)) (boot_args (fst x)) /\ room_ok (init_room (snd x)) (init_args (fst x)).
Lemma room_op_ok bld x o : Inv (fst x) -> rooms_ok x -> rooms_ok (room_op bld x o) /\ fst (room_op bld x o) = fst (run_op bld (fst x) o).
Proof.
  intros HI (R1 & R2). unfold room_op, rooms_ok.
  destruct (run_op_cases bld (fst x) o HI) as [(e & E)|[(t & _ & _ & _ & E)|(t & _ & _ & _ & E)]]; rewrite E; cbn [fst snd boot_args init_args boot_room init_room].
  - auto.
  - split; [split; [apply appended_ok|apply appended_same]; assumption|reflexivity].
  - split; [split; [apply appended_same|apply appended_ok]; assumption|reflexivity].
Qed.
Lemma room_ops_ok bld os : forall x, Inv (fst x) -> rooms_ok x ->
  rooms_ok (room_ops bld x os) /\ fst (room_ops bld x os) = run_ops bld (fst x) os.
Proof.
  induction os as [|o os IH]; intros x HI R; [auto|]. unfold room_ops, run_ops in *. cbn [fold_left].
  destruct (room_op_ok bld x o HI R) as [R1 E1]. destruct (IH (room_op bld x o)) as [R2 E2]; [rewrite E1; apply run_op_inv; exact HI|exact R1|].
  split; [exact R2|]. rewrite E2, E1. reflexivity.
Qed.

(** ** C105 *)
(** The loader with its heap is the loader: nothing but the heap is added. *)
Theorem C105_same_load : forall S (src : source S) bld be off highmem s m,
  match helf_load src bld be off highmem s m no_heap with (s', m', _, o) => (s', m', o) end = gelf_load src bld be off highmem s m.
Proof. intros. apply erases_elf. Qed.

(** Whatever the source answers, the loader never holds more than 5.25 MiB. *)
Theorem C105_elf_bounded : forall S (src : source S) bld be off highmem s m s' m' h o,
  helf_load src bld be off highmem s m no_heap = (s', m', h, o) -> h_peak h <= 5505024.
Proof.
  intros S src bld be off hm s m s' m' h o H. pose proof (keeps_elf src bld be off hm s m no_heap eq_refl) as K. rewrite H in K.
  destruct K as (K1 & K2). apply heap_bounds; assumption.
Qed.

(** And never more than three times the length of the image file, plus 56 bytes: a small file cannot make it take much. *)
Theorem C105_elf_in_proportion : forall bld be off highmem r m r' m' h o,
  helf_load reader_source bld be off highmem r m no_heap = (r', m', h, o) -> h_peak h <= 3 * lenN (rd_data r) + 56.
Proof.
  intros bld be off hm r m r' m' h o H. pose proof (keeps_elf reader_source bld be off hm r m no_heap eq_refl) as K.
  pose proof (elf_in_file (rd_data r) bld be off hm r m no_heap (conj eq_refl eq_refl)) as F. rewrite H in K, F.
  destruct K as (K1 & _). pose proof (proj1 (heap_bounds h K1)). lia.
Qed.

(** A command line built by any calls holds at most twice its text plus 16 bytes, so at most twice its capacity, and nothing at
    all when it is new, however large the capacity. *)
Theorem C105_cmdline : forall bld k c0 os, ctor_typed k -> run_ctor k = Ok c0 ->
  let (c, h) := room_ops bld (c0, first_rooms c0) os in
  c = run_ops bld c0 os /\
  lenN (utf8 (boot_args c)) <= boot_room h /\ lenN (utf8 (init_args c)) <= init_room h /\
  boot_room h + init_room h <= 2 * (lenN (utf8 (boot_args c)) + lenN (utf8 (init_args c))) + 16 /\
  boot_room h + init_room h <= 2 * ctor_cap k + 16.
Proof.
  intros bld k c0 os Ht Ec. destruct (ctor_inv k c0 Ht Ec) as [HI Hcap].
  assert (R0 : rooms_ok (c0, first_rooms c0)).
  { unfold rooms_ok, first_rooms, room_ok. cbn [fst snd boot_room init_room]. lia. }
  destruct (room_ops_ok bld os (c0, first_rooms c0) HI R0) as [R1 E1].
  destruct (room_ops bld (c0, first_rooms c0) os) as [c h]. cbn [fst snd] in *. destruct R1 as [R1 R2]. cbn [fst snd] in R1, R2.
  unfold room_ok in *. rewrite <- !str_len_utf8.
  destruct (run_ops_inv bld os c0 HI) as [[Hf _] Hc]. rewrite <- E1 in *. apply fits_len in Hf. rewrite Hc, Hcap in Hf.
  split; [reflexivity|]. split; [lia|]. split; [lia|]. split; [lia|]. destruct (init_args c); [change (str_len (@nil N)) with 0 in *|]; lia.
Qed.
Theorem C105_new_allocates_nothing : forall cap c, cmdline_new cap = Ok c -> first_rooms c = mkRooms 0 0.
Proof. intros cap c H. unfold cmdline_new in H. destruct (cap =? 0); [discriminate|]. injection H as <-. reflexivity. Qed.

(** The demonstration image: four headers, one allocation of four; and a file that announces 65535 headers but holds two. *)
Example C105_applies : exists s m o, helf_load reader_source true TryAccess None None (plain_reader demo_elf) demo_mem no_heap =
  (s, m, mkHeap (lenN (phdrs_of demo_elf)) 4 224, Ok o).
Proof. eexists _, _, _. vm_compute. reflexivity. Qed.
Definition boastful : bytes := patch (slice demo_elf 0 (64 + 2 * 56)) 56 [xff; xff].
Example C105_boastful : exists s m, helf_load reader_source true TryAccess None None (plain_reader boastful) demo_mem no_heap =
  (s, m, mkHeap 2 4 224, Err (LElf ReadProgramHeader)).
Proof. eexists _, _. vm_compute. reflexivity. Qed.
Example C105_growth : N.iter 65535 push no_heap = mkHeap 65535 65536 5505024.
Proof. vm_compute. reflexivity. Qed.
Example C105_cmdline_applies : snd (room_ops true (mkCmdline [] [] 1000000, mkRooms 0 0) [OpStr (txt "a"); OpStr (txt "bcdefghijk"); OpInit (txt "z")]) =
  mkRooms 16 8.
Proof. vm_compute. reflexivity. Qed.

(** ** Boot parameters *)
(** After any calls each list holds at most twice its contents plus 8 bytes; nothing is held before the first call, and how many
    calls there were does not matter.  (The contents reach from the list's start to its last element: [C80].) *)
Definition snug (v : option bytes) (room : N) : Prop := lenN (or_empty v) <= room /\ room <= 2 * lenN (or_empty v) + 8.
Lemma reserve_snug room len add : len <= room -> room <= 2 * len + 8 ->
  len + add <= reserve 8 room len add /\ reserve 8 room len add <= 2 * (len + add) + 8.
Proof. intros A B. unfold reserve. destruct (N.ltb_spec (room - len) add); lia. Qed.
Lemma collected_snug es : forall room len, len <= room -> room <= 2 * len + 8 ->
  len + lenN (concat es) <= collected room len es /\ collected room len es <= 2 * (len + lenN (concat es)) + 8.
Proof.
  induction es as [|e r IH]; intros room len A B; cbn [collected concat].
  - change (lenN (@nil byte)) with 0. lia.
  - destruct (reserve_snug room len (lenN e) A B) as [C D]. specialize (IH _ _ C D). rewrite lenN_app. unfold lenN, bytes in *. lia.
Qed.
Lemma add_longer bld e a v s : match add_to_list bld e a v s with (v', _, _) => lenN v <= lenN v' end.
Proof.
  unfold add_to_list.
  destruct (match s with None => a | Some _ => s end) as [ls|]; [|apply N.le_refl].
  destruct (checked_add ls (lenN v)) as [nx|]; [|apply N.le_refl].
  destruct (checked_sub (match a with Some x => x | None => nx end) ls) as [o|]; [|apply N.le_refl].
  destruct (uadd bld o (lenN e)) as [en|er|pa] eqn:U; try apply N.le_refl.
  assert (Ue : en <= o + lenN e).
  { revert U. unfold uadd. destruct (o + lenN e <? two64); [intros H; injection H as <-; apply N.le_refl|].
    destruct bld; [discriminate|]. intros H. injection H as <-. apply N.mod_le. discriminate. }
  assert (Sp : forall w, lenN v <= lenN w ->
    match (match vec_splice w o en e with Ok v' => (v', Some ls, Ok (match a with Some x => x | None => nx end)) | Err x => (w, Some ls, Err x) | Panic x => (w, Some ls, Panic x) end : bytes * option N * outcome berror N) with (v', _, _) => lenN v <= lenN v' end).
  { intros w Hw. unfold vec_splice. destruct (N.ltb_spec en o) as [Y|Y]; cbn [orb]; [exact Hw|].
    destruct (N.ltb_spec (lenN w) en) as [Z|Z]; [exact Hw|]. rewrite !lenN_app, !lenN_slice. unfold lenN, bytes in *. lia. }
  unfold vec_resize. destruct (N.leb_spec (N.max en (lenN v)) (lenN v)) as [L|L].
  - assert (Ev : slice v 0 (N.max en (lenN v)) = v). { replace (N.max en (lenN v)) with (lenN v) by lia. apply slice_full. }
    rewrite Ev. apply Sp. apply N.le_refl.
  - destruct (isize_max <? N.max en (lenN v)); [apply N.le_refl|]. apply Sp. rewrite lenN_app. unfold lenN, bytes in *. lia.
Qed.
Lemma resized_snug room old new : snug old room -> lenN (or_empty old) <= lenN (or_empty new) -> snug new (resized room old new).
Proof.
  intros [A B] L. unfold snug, resized. destruct (reserve_snug room _ (lenN (or_empty new) - lenN (or_empty old)) A B) as [C D].
  unfold lenN, bytes in *. lia.
Qed.
Lemma room_call_snug bld x c : snug (sections (fst x)) (sections_room (snd x)) -> snug (modules (fst x)) (modules_room (snd x)) ->
  snug (sections (fst (room_call bld x c))) (sections_room (snd (room_call bld x c))) /\
  snug (modules (fst (room_call bld x c))) (modules_room (snd (room_call bld x c))).
Proof.
  intros A B. destruct x as [p [sr mr]]. cbn [fst snd sections_room modules_room] in *. unfold room_call. cbn [fst snd].
  destruct c as [[] es a|[] e addr]; cbn [call set_list add fst snd sections_room modules_room set_sections set_modules sections modules].
  - split; [|exact B]. unfold snug. cbn [or_empty]. pose proof (collected_snug es 0 0 (N.le_refl 0) (N.le_0_l _)) as C. rewrite N.add_0_l in C. exact C.
  - split; [exact A|]. unfold snug. cbn [or_empty]. pose proof (collected_snug es 0 0 (N.le_refl 0) (N.le_0_l _)) as C. rewrite N.add_0_l in C. exact C.
  - unfold add_section. pose proof (add_longer bld e addr (or_empty (sections p)) (sections_start p)) as L.
    destruct (add_to_list bld e addr (or_empty (sections p)) (sections_start p)) as [[v s] o]. cbn [fst sections modules].
    split; [|exact B]. apply resized_snug; [exact A|exact L].
  - unfold add_module. pose proof (add_longer bld e addr (or_empty (modules p)) (modules_start p)) as L.
    destruct (add_to_list bld e addr (or_empty (modules p)) (modules_start p)) as [[v s] o]. cbn [fst sections modules].
    split; [exact A|]. apply resized_snug; [exact B|exact L].
Qed.
Theorem C105_boot_parameters : forall bld h a cs,
  let (p, r) := room_calls bld (bp_new h a, mkLists 0 0) cs in
  p = fold_left (fun q c => fst (call bld q c)) cs (bp_new h a) /\
  lenN (contents (sections p)) <= sections_room r <= 2 * lenN (contents (sections p)) + 8 /\
  lenN (contents (modules p)) <= modules_room r <= 2 * lenN (contents (modules p)) + 8.
Proof.
  intros bld h a cs.
  assert (G : forall cs x, snug (sections (fst x)) (sections_room (snd x)) -> snug (modules (fst x)) (modules_room (snd x)) ->
    fst (room_calls bld x cs) = fold_left (fun q c => fst (call bld q c)) cs (fst x) /\
    snug (sections (fst (room_calls bld x cs))) (sections_room (snd (room_calls bld x cs))) /\
    snug (modules (fst (room_calls bld x cs))) (modules_room (snd (room_calls bld x cs)))).
  { clear cs. unfold room_calls. induction cs as [|c r IH]; intros x A B; cbn [fold_left]; [auto|].
    destruct (room_call_snug bld x c A B) as [C D]. specialize (IH (room_call bld x c) C D). exact IH. }
  specialize (G cs (bp_new h a, mkLists 0 0)). destruct (room_calls bld (bp_new h a, mkLists 0 0) cs) as [p r]. cbn [fst snd] in G.
  destruct G as (G1 & G2 & G3); [split; vm_compute; discriminate|split; vm_compute; discriminate|].
  split; [exact G1|]. exact (conj G2 G3).
Qed.
(** Three modules appended and a memory map set; then one element far from the start of its list. *)
Example C105_boot_parameters_applies :
  snd (room_calls true (bp_new [x01] 0, mkLists 0 0)
    [BAdd Modules (zeros 32) (Some 0x1000); BSet Sections [zeros 24; zeros 24] 0x2000; BAdd Modules (zeros 32) None; BAdd Modules (zeros 32) None]) =
  mkLists 48 128.
Proof. vm_compute. reflexivity. Qed.
Example C105_far_element : snd (room_calls true (bp_new [x01] 0, mkLists 0 0) [BAdd Modules [x01] (Some 0x1000); BAdd Modules [x02] (Some 0x5000)]) = mkLists 0 0x4001.
Proof. vm_compute. reflexivity. Qed.
