(** * Props_Ask: property C99, the loaders and configurators over any image source and any guest memory.

    [exec wd p w = (w', o)]: in the world [wd] (any source, any implementation of guest memory, of any
    state), a call started in state [w] ends in state [w'] with outcome [o].  SpecAsk says which
    conversations lead to which outcomes. *)
From Verif Require Import Base Base_proofs Io Mem SpecMem Mem_proofs Layout SpecFile Text Cmdline Loader Elf SpecElf BzImage SpecBz Pe SpecPe
  BootParams Configurators Source SpecTalk Props_Elf Props_Bz Props_Pe Props_Loader Props_Config
  Ask SpecAsk Ask_proofs Ask_proofs2 Ask_proofs3 Ask_proofs4.
From Verif Require Props_Talk.
Local Open Scope list_scope.

(** ** Outcomes and effects, exactly *)
Lemma by_path {W E A} (wd : world W) (p : prog E A) (K : list act -> outcome E A -> Prop) w w' o : fair_world wd ->
  (forall l, Forall fair l -> (path p l o <-> K l o)) ->
  (exec wd p w = (w', o) <-> exists l, conversation wd w l w' /\ K l o).
Proof.
  intros F H. rewrite exec_path. split; intros (l & C & P); exists l; (split; [exact C|]); apply (H l (conv_fair _ _ _ _ F C)); exact P.
Qed.

Theorem C99_elf : forall W (wd : world W) bld off highmem w w' o, fair_world wd ->
  (exec wd (elf_prog bld off highmem) w = (w', o) <-> exists l, conversation wd w l w' /\ elf_acts bld off highmem l o).
Proof. intros W wd bld off highmem w w' o F. apply by_path; [exact F|]. intros l Fl. now apply elf_path. Qed.
Theorem C99_bz : forall W (wd : world W) off highmem w w' o, fair_world wd ->
  (exec wd (bz_prog off highmem) w = (w', o) <-> exists l, conversation wd w l w' /\ bz_acts off highmem l o).
Proof. intros W wd off highmem w w' o F. apply by_path; [exact F|]. intros l Fl. now apply bz_path. Qed.
Theorem C99_pe : forall W (wd : world W) a off w w' o, fair_world wd ->
  (exec wd (pe_prog a off) w = (w', o) <-> exists l, conversation wd w l w' /\ pe_acts a off l o).
Proof. intros W wd a off w w' o F. apply by_path; [exact F|]. intros l Fl. now apply pe_path. Qed.
Theorem C99_dtb : forall W (wd : world W) addr w w' o,
  exec wd (dtb_prog addr) w = (w', o) <-> exists l, conversation wd w l w' /\ dtb_acts addr l o.
Proof. intros W wd addr w w' o. rewrite exec_path. split; intros (l & C & P); exists l; (split; [exact C|]); now apply dtb_path. Qed.
Theorem C99_cmdline : forall W (wd : world W) bld addr c w w' o,
  exec wd (cmdline_prog bld addr c) w = (w', o) <-> exists l, conversation wd w l w' /\ cmdline_acts addr c l o.
Proof. intros W wd bld addr c w w' o. rewrite exec_path. split; intros (l & C & P); exists l; (split; [exact C|]); now apply (cmdline_path bld). Qed.
Theorem C99_linux : forall W (wd : world W) p w w' o,
  exec wd (linux_prog p) w = (w', o) <-> exists l, conversation wd w l w' /\
    block_acts (header p) (header_start p) (BLinux ZeroPagePastRamEnd) (BLinux ZeroPageSetup) l o.
Proof. intros W wd p w w' o. rewrite exec_path. split; intros (l & C & P); exists l; (split; [exact C|]); now apply block_path. Qed.
Theorem C99_fdt : forall W (wd : world W) p w w' o,
  exec wd (fdt_prog p) w = (w', o) <-> exists l, conversation wd w l w' /\
    block_acts (header p) (header_start p) (BFdt FDTPastRamEnd) (BFdt WriteFDTToMemory) l o.
Proof. intros W wd p w w' o. rewrite exec_path. split; intros (l & C & P); exists l; (split; [exact C|]); now apply block_path. Qed.
Theorem C99_pvh : forall W (wd : world W) p w w' o,
  exec wd (pvh_prog p) w = (w', o) <-> exists l, conversation wd w l w' /\ pvh_acts p l o.
Proof. intros W wd p w w' o. rewrite exec_path. split; intros (l & C & P); exists l; (split; [exact C|]); now apply pvh_path. Qed.

(** The same, for any call. *)
Theorem C99_calls : forall W (wd : world W) c w w' r, fair_world wd ->
  (call_runs wd c w w' r <-> exists l, conversation wd w l w' /\ call_acts c l r).
Proof.
  intros W wd c w w' r F. destruct c as [bld off hm|off hm|a off|addr|bld addr c|p|p|p]; cbn [call_runs call_acts]; split.
  all: try (intros (o & -> & H); first [apply C99_elf in H; [|exact F]|apply C99_bz in H; [|exact F]|apply C99_pe in H; [|exact F]|apply C99_dtb in H
      |apply C99_cmdline in H|apply C99_linux in H|apply C99_fdt in H|apply C99_pvh in H];
    destruct H as (l & C & K); exists l; split; [exact C|]; exists o; split; [reflexivity|exact K]).
  all: intros (l & C & o & -> & K); exists o; (split; [reflexivity|]).
  - apply C99_elf; eauto.
  - apply C99_bz; eauto.
  - apply C99_pe; eauto.
  - apply C99_dtb; eauto.
  - apply C99_cmdline; eauto.
  - apply C99_linux; eauto.
  - apply C99_fdt; eauto.
  - apply C99_pvh; eauto.
Qed.

(** ** A refusal ends the call *)
(** What a program does with a refusal. *)
Fixpoint yields {E A} (p : prog E A) : Prop :=
  match p with
  | Done _ => True
  | AskEnd k => (exists e, k None = Done (Err e)) /\ forall g, yields (k g)
  | AskTo _ k => (exists e, k None = Done (Err e)) /\ forall g, yields (k g)
  | AskBy _ k => (exists e, k None = Done (Err e)) /\ forall g, yields (k g)
  | AskAll _ k => (exists e, k None = Done (Err e)) /\ forall g, yields (k g)
  | AskSome _ k => (exists e, k None = Done (Err e)) /\ forall g, yields (k g)
  | AskPlace _ _ k => (exists e, k false = Done (Err e)) /\ forall g, yields (k g)
  | AskFits _ _ k => (exists e, k false = Done (Err e)) /\ forall g, yields (k g)
  | AskWrite _ _ k => (exists e, k false = Done (Err e)) /\ forall g, yields (k g)
  | AskLast k => forall g, yields (k g)
  end.
Lemma yields_bind {E A B} (x : prog E A) (f : A -> prog E B) : yields x -> (forall a, yields (f a)) -> yields (pbind x f).
Proof.
  intros H Hf. induction x as [o0|k IH|x k IH|x k IH|x k IH|x k IH|a n k IH|a n k IH|bs a k IH|k IH]; cbn [pbind yields] in *.
  { destruct o0; cbn; auto. }
  all: try (destruct H as ((e & He) & H); split; [exists e; rewrite He; reflexivity|]; intros g; apply IH; apply H).
  intros g. apply IH, H.
Qed.
Lemma yields_ok {E A} (o : option A) (e : E) : yields (Done (ok_or o e)).
Proof. exact I. Qed.
Ltac yield1 :=
  match goal with
  | |- yields (pbind _ _) => apply yields_bind; [|intros ?]
  | |- yields (Done _) => exact I
  | |- yields (seek_end _) => split; [eexists; reflexivity|intros ?; exact I]
  | |- yields (seek_to _ _) => split; [eexists; reflexivity|intros ?; exact I]
  | |- yields (seek_by _ _) => split; [eexists; reflexivity|intros ?; exact I]
  | |- yields (read_all _ _) => split; [eexists; reflexivity|intros ?; exact I]
  | |- yields (read_some _ _) => split; [eexists; reflexivity|intros ?; exact I]
  | |- yields (place _ _ _) => split; [eexists; reflexivity|intros ?; exact I]
  | |- yields (fits _ _ _) => split; [eexists; reflexivity|intros ?; exact I]
  | |- yields (write _ _ _) => split; [eexists; reflexivity|intros ?; exact I]
  | |- yields last => intros ?; exact I
  | |- yields (if ?b then _ else _) => destruct b
  | |- yields (match ?x with _ => _ end) => destruct x
  end.
Lemma yields_note bld phdr : forall fuel rs nh, yields (note_prog bld fuel phdr rs nh).
Proof. induction fuel as [|fuel IH]; intros rs nh; cbn [note_prog]; repeat yield1. apply IH. Qed.
Lemma yields_parse bld phdr : yields (parse_note_prog bld phdr).
Proof. unfold parse_note_prog. cbv zeta. yield1; [yield1|]. apply yields_bind; [apply yields_note|]. intros res. repeat yield1. Qed.
Lemma yields_read_phdrs : forall n, yields (read_phdrs_prog n).
Proof. induction n as [|n IH]; cbn [read_phdrs_prog]; repeat yield1. exact IH. Qed.
Lemma yields_load_phdrs bld off : forall bs kend cap, yields (load_phdrs_prog bld off bs kend cap).
Proof.
  induction bs as [|b bs IH]; intros kend cap; cbn [load_phdrs_prog]; repeat yield1; try apply IH. apply yields_parse.
Qed.
Lemma yields_elf bld off hm : yields (elf_prog bld off hm).
Proof. unfold elf_prog. repeat yield1; [apply yields_read_phdrs|apply yields_load_phdrs]. Qed.
Lemma yields_bz off hm : yields (bz_prog off hm).
Proof. unfold bz_prog. cbv zeta. repeat yield1. Qed.
Lemma yields_pe a off : yields (pe_prog a off).
Proof. unfold pe_prog. repeat yield1. Qed.
Lemma yields_path {E A} (p : prog E A) : yields p -> forall l1 x l2 o, path p (l1 ++ x :: l2) o -> refusal x -> l2 = [] /\ exists e, o = Err e.
Proof.
  induction p as [o0|k IH|x0 k IH|x0 k IH|x0 k IH|x0 k IH|a n k IH|a n k IH|bs a k IH|k IH]; intros Y l1 x l2 o P R.
  { destruct P as (P & _). destruct l1; discriminate. }
  all: cbn [yields] in Y.
  all: try (destruct Y as ((e & He) & Y)).
  all: destruct l1 as [|y l1]; cbn [app] in P; cbn [path] in P.
  all: try (destruct x as [[g|y g|y g|y g|y g|y g]|b m g|b m g|bs' b g|g]; try contradiction; destruct g; try contradiction R;
            repeat match type of P with _ /\ path _ _ _ => destruct P as (_ & P) | _ /\ _ /\ _ => destruct P as (_ & P) end;
            rewrite He in P; destruct P as (-> & ->); split; [reflexivity|eauto]).
  all: try (destruct y as [[g|y g|y g|y g|y g|y g]|b m g|b m g|bs' b g|g]; try contradiction;
            repeat match type of P with _ /\ path _ _ _ => destruct P as (_ & P) | _ /\ _ /\ _ => destruct P as (_ & P) end;
            exact (IH g (Y g) _ _ _ _ P R)).
  destruct x as [[g|y g|y g|y g|y g|y g]|b m g|b m g|bs' b g|g]; contradiction.
Qed.
Theorem C99_refusal_ends : forall c l1 x l2 r, Forall fair (l1 ++ x :: l2) -> call_acts c (l1 ++ x :: l2) r -> refusal x ->
  l2 = [] /\ failed r.
Proof.
  intros c l1 x l2 r F K R. unfold failed.
  destruct c as [bld off hm|off hm|a off|addr|bld addr c|p|p|p]; destruct K as (o & -> & K).
  - apply elf_path in K; [|exact F]. destruct (yields_path _ (yields_elf _ _ _) _ _ _ _ K R) as (-> & e & ->). eauto.
  - apply bz_path in K; [|exact F]. destruct (yields_path _ (yields_bz _ _) _ _ _ _ K R) as (-> & e & ->). eauto.
  - apply pe_path in K; [|exact F]. destruct (yields_path _ (yields_pe _ _) _ _ _ _ K R) as (-> & e & ->). eauto.
  - apply dtb_path in K. assert (Y : yields (dtb_prog addr)) by (unfold dtb_prog; repeat yield1).
    destruct (yields_path _ Y _ _ _ _ K R) as (-> & e & ->). split; [reflexivity|]. right. left. eauto.
  - apply (cmdline_path bld) in K. assert (Y : yields (cmdline_prog bld addr c)) by (unfold cmdline_prog; cbv zeta; repeat yield1).
    destruct (yields_path _ Y _ _ _ _ K R) as (-> & e & ->). split; [reflexivity|]. right. left. eauto.
  - apply block_path in K. assert (Y : yields (linux_prog p)) by (unfold linux_prog; repeat yield1).
    destruct (yields_path _ Y _ _ _ _ K R) as (-> & e & ->). split; [reflexivity|]. right. right. eauto.
  - apply block_path in K. assert (Y : yields (fdt_prog p)) by (unfold fdt_prog; repeat yield1).
    destruct (yields_path _ Y _ _ _ _ K R) as (-> & e & ->). split; [reflexivity|]. right. right. eauto.
  - apply pvh_path in K. assert (Y : yields (pvh_prog p)) by (unfold pvh_prog; repeat yield1).
    destruct (yields_path _ Y _ _ _ _ K R) as (-> & e & ->). split; [reflexivity|]. right. right. eauto.
Qed.

(** ** The next question depends on the answers so far, and on nothing else *)
Lemma path_together {E A} (p : prog E A) : forall l1 o1 l2 o2, path p l1 o1 -> path p l2 o2 ->
  (l1 = l2 /\ o1 = o2) \/ exists l x y r1 r2, l1 = l ++ x :: r1 /\ l2 = l ++ y :: r2 /\ same_question x y /\ x <> y.
Proof.
  induction p as [o0|k IH|x k IH|x k IH|x k IH|x k IH|a n k IH|a n k IH|bs a k IH|k IH]; intros l1 o1 l2 o2 P1 P2.
  { destruct P1 as (-> & ->), P2 as (-> & ->). auto. }
  all: destruct l1 as [|[[g|y g|y g|y g|y g|y g]|b m g|b m g|bs1 b g|g] l1]; try contradiction.
  all: destruct l2 as [|[[g2|y2 g2|y2 g2|y2 g2|y2 g2|y2 g2]|b2 m2 g2|b2 m2 g2|bs2 b2 g2|g2] l2]; try contradiction; cbn [path] in P1, P2.
  all: repeat match type of P1 with ?u = ?v /\ _ => let Q := fresh in destruct P1 as (Q & P1); try subst v end.
  all: repeat match type of P2 with ?u = ?v /\ _ => let Q := fresh in destruct P2 as (Q & P2); try subst v end.
  all: assert (D : g = g2 \/ g <> g2) by (clear; repeat decide equality || (destruct (N.eq_dec g g2); auto) || idtac).
  all: destruct D as [<-|D].
  all: try (destruct (IH g _ _ _ _ P1 P2) as [(-> & ->)|(l & z1 & z2 & r1 & r2 & -> & -> & Q & Z)];
            [left; auto|right; eexists (_ :: l), z1, z2, r1, r2; cbn [app]; split; [reflexivity|]; split; [reflexivity|]; split; [exact Q|exact Z]]).
  all: right; eexists [], _, _, l1, l2; cbn [app]; split; [reflexivity|]; split; [reflexivity|]; split; [cbn; auto|intros Z; injection Z as Z; contradiction].
Qed.
Theorem C99_same_questions : forall c l1 r1 l2 r2, Forall fair l1 -> Forall fair l2 -> call_acts c l1 r1 -> call_acts c l2 r2 ->
  (l1 = l2 /\ r1 = r2) \/
  exists l x y t1 t2, l1 = l ++ x :: t1 /\ l2 = l ++ y :: t2 /\ same_question x y /\ x <> y.
Proof.
  intros c l1 r1 l2 r2 F1 F2 K1 K2.
  destruct c as [bld off hm|off hm|a off|addr|bld addr c|p|p|p]; destruct K1 as (o1 & -> & K1), K2 as (o2 & -> & K2).
  - apply elf_path in K1; [|exact F1]. apply elf_path in K2; [|exact F2]. destruct (path_together _ _ _ _ _ K1 K2) as [(-> & ->)|H]; auto.
  - apply bz_path in K1; [|exact F1]. apply bz_path in K2; [|exact F2]. destruct (path_together _ _ _ _ _ K1 K2) as [(-> & ->)|H]; auto.
  - apply pe_path in K1; [|exact F1]. apply pe_path in K2; [|exact F2]. destruct (path_together _ _ _ _ _ K1 K2) as [(-> & ->)|H]; auto.
  - apply dtb_path in K1. apply dtb_path in K2. destruct (path_together _ _ _ _ _ K1 K2) as [(-> & ->)|H]; auto.
  - apply (cmdline_path bld) in K1. apply (cmdline_path bld) in K2. destruct (path_together _ _ _ _ _ K1 K2) as [(-> & ->)|H]; auto.
  - apply block_path in K1. apply block_path in K2. destruct (path_together _ _ _ _ _ K1 K2) as [(-> & ->)|H]; auto.
  - apply block_path in K1. apply block_path in K2. destruct (path_together _ _ _ _ _ K1 K2) as [(-> & ->)|H]; auto.
  - apply pvh_path in K1. apply pvh_path in K2. destruct (path_together _ _ _ _ _ K1 K2) as [(-> & ->)|H]; auto.
Qed.

(** ** What a successful call has put into guest memory *)
Lemma copies_app l1 l2 : copies (l1 ++ l2) = copies l1 ++ copies l2.
Proof. apply flat_map_app. Qed.
Lemma blocks_app l1 l2 : blocks (l1 ++ l2) = blocks l1 ++ blocks l2.
Proof. apply flat_map_app. Qed.
Lemma copies_img evs : copies (map Img evs) = [].
Proof. induction evs as [|e evs IH]; [reflexivity|exact IH]. Qed.
Lemma blocks_img evs : blocks (map Img evs) = [].
Proof. induction evs as [|e evs IH]; [reflexivity|exact IH]. Qed.

Lemma firstn_pre {A} (a b : list A) : forall n, exists k, firstn n a = firstn k (a ++ b).
Proof.
  induction a as [|x a IH]; intros n; [exists O; destruct n; reflexivity|]. destruct n as [|n]; [exists O; reflexivity|].
  destruct (IH n) as (k & Hk). exists (S k). cbn. now rewrite Hk.
Qed.
Definition segment (off : option N) (p : ph) : N * N := (base_of off + ph_paddr p, ph_filesz p).
Lemma table_copies bld off ps c l o : table_acts bld off ps c l o -> blocks l = [] /\
  (forall c', o = Ok c' -> copies l = map (segment off) (loaded ps)) /\
  exists n, copies l = firstn n (map (segment off) (loaded ps)).
Proof.
  assert (Hp : forall p l o, ph_acts bld off p l o -> blocks l = [] /\
    (forall c', o = Ok c' -> copies l = map (segment off) (loaded [p])) /\ exists n, copies l = firstn n (map (segment off) (loaded [p]))).
  { intros p l0 o0 [L Nn|k L Nn Eo|L Nn Eo|q evs o1 L Nn Eo K|L|q L A1|q L A1|q L A1 A2|q L A1]; unfold loaded; cbn [filter]; rewrite L.
    - split; [reflexivity|]. split; [reflexivity|]. exists O. reflexivity.
    - split; [reflexivity|]. split; [reflexivity|]. exists O. reflexivity.
    - split; [reflexivity|]. split; [discriminate|]. exists O. reflexivity.
    - rewrite copies_img, blocks_img. split; [reflexivity|]. split; [reflexivity|]. exists O. reflexivity.
    - split; [reflexivity|]. split; [discriminate|]. exists O. reflexivity.
    - split; [reflexivity|]. split; [discriminate|]. exists O. reflexivity.
    - split; [reflexivity|]. split; [discriminate|]. exists 1%nat. reflexivity.
    - split; [reflexivity|]. split; [discriminate|]. exists 1%nat. reflexivity.
    - split; [reflexivity|]. split; [reflexivity|]. exists 1%nat. reflexivity. }
  assert (Hc : forall p ps, loaded (p :: ps) = loaded [p] ++ loaded ps).
  { intros p qs. unfold loaded. cbn [filter]. destruct (is_load p); reflexivity. }
  induction 1 as [c|p ps c l e K|p ps c l w K|p ps c l c1 l2 o K _ IH].
  - split; [reflexivity|]. split; [reflexivity|]. exists O. reflexivity.
  - destruct (Hp _ _ _ K) as (B & _ & n & Cn). split; [exact B|]. split; [discriminate|].
    rewrite Cn, (Hc p ps), map_app. apply firstn_pre.
  - destruct (Hp _ _ _ K) as (B & _ & n & Cn). split; [exact B|]. split; [discriminate|].
    rewrite Cn, (Hc p ps), map_app. apply firstn_pre.
  - destruct (Hp _ _ _ K) as (B & E1 & _). destruct IH as (B2 & E2 & n & Cn). specialize (E1 _ eq_refl).
    rewrite blocks_app, copies_app, B, B2, E1, (Hc p ps), map_app. split; [reflexivity|]. split.
    + intros c' Eo. now rewrite (E2 c' Eo).
    + exists (length (map (segment off) (loaded [p])) + n)%nat. rewrite Cn, firstn_app_2. reflexivity.
Qed.

(** An ELF load, whatever comes of it, copies a first part of the table's loadable segments, in the table's order; a successful one, all of them. *)
Theorem C99_elf_segments : forall bld off highmem l o, elf_acts bld off highmem l o ->
  copies l = [] /\ (forall res, o <> Ok res) \/
  exists h bs, elf_good h off highmem /\ lenN bs = phnum_of h /\ In (Img (ReadAll 64 (Some h))) l /\ (forall b, In b bs -> In (Img (got_entry b)) l) /\
    (exists n, copies l = firstn n (map (segment off) (loaded (map ph_read bs)))) /\
    (forall res, o = Ok res -> copies l = map (segment off) (loaded (map ph_read bs)) /\
       kernel_load res = base_of off + entry_of h /\ kernel_end res = max_end off (map ph_read bs)).
Proof.
  intros bld off highmem l o [ |q|q h e Hl P|q h G|q h q2 bs G Lb Hbs|q h q2 bs l1 o1 G Lb Hbs K].
  1-4: left; split; [reflexivity|discriminate].
  - left. split; [apply copies_img|discriminate].
  - right. exists h, bs. split; [exact G|]. split; [exact Lb|]. split; [right; left; reflexivity|]. split.
    { intros b Hb. apply in_or_app. left. cbn [map]. do 3 right. rewrite map_map. apply in_map_iff. exists b. auto. }
    rewrite copies_app, copies_img. cbn [app]. destruct (table_copies _ _ _ _ _ _ K) as (_ & E1 & E2). split; [exact E2|].
    intros res Er. destruct o1 as [c|e|w]; try discriminate. injection Er as <-. split; [exact (E1 c eq_refl)|]. split; reflexivity.
Qed.
(** The other loaders copy at most once; the configurators write the blocks of the boot parameters. *)
Theorem C99_pe_copies : forall a off l res, pe_acts a off l (Ok res) ->
  exists n, In (Img (SoughtEnd (Some n))) l /\ copies l = [(kernel_load res, n)] /\ kernel_end res = kernel_load res + n.
Proof.
  intros a off l res K. inversion K as [ | | | | | | |n q h q2 Hl G Hb]; subst. exists n. split; [left; reflexivity|]. split; reflexivity.
Qed.
Theorem C99_bz_copies : forall off highmem l res, bz_acts off highmem l (Ok res) ->
  exists n bs, In (Img (SoughtEnd (Some n))) l /\ In (Img (ReadSome 123 (Some bs))) l /\
    copies l = [(kernel_load res, n - bz_setup_size (as_file bs))] /\ kernel_end res = kernel_load res + (n - bz_setup_size (as_file bs)).
Proof.
  intros off highmem l res K. inversion K as [ | | | | | | |n q bs q2 Hl G Hb]; subst. exists n, bs. split; [left; reflexivity|]. split; [right; right; left; reflexivity|].
  split; reflexivity.
Qed.
Lemma block_blocks bs a e1 e2 l : block_acts bs a e1 e2 l (Ok tt) -> blocks l = [(a, bs)].
Proof. inversion 1. reflexivity. Qed.
Theorem C99_pvh_blocks : forall p l, pvh_acts p l (Ok tt) -> blocks l = pvh_pieces p /\ copies l = [].
Proof.
  intros p l K. inversion K as [ | | | |t a l1 l2 l3 o Et Ea B1 B2 M]; subst. rewrite !blocks_app, !copies_app.
  rewrite (block_blocks _ _ _ _ _ B1), (block_blocks _ _ _ _ _ B2). unfold pvh_pieces. rewrite Et, Ea.
  assert (C1 : copies l1 = []) by (inversion B1; reflexivity). assert (C2 : copies l2 = []) by (inversion B2; reflexivity). rewrite C1, C2.
  inversion M as [Em|t' Em Ea'|t' a' Em Ea'|t' a' Em Ea']; subst; rewrite Em; cbn [app].
  - split; [|reflexivity]. destruct (modules_start p); reflexivity.
  - rewrite Ea'. split; reflexivity.
Qed.
(** Loading writes no blocks and asks memory nothing but to copy; the rest never touches the source. *)
Definition loading (c : call) : bool := match c with LoadElf _ _ _ | LoadBz _ _ | LoadPe _ _ | LoadDtb _ => true | _ => false end.
Theorem C99_kinds : forall c l r, call_acts c l r ->
  Forall (fun x => match x with Img _ | Placed _ _ _ => loading c = true | Fits _ _ _ | Wrote _ _ _ | Last _ => loading c = false end) l.
Proof.
  assert (Hi : forall (P : act -> Prop) evs, (forall e, P (Img e)) -> Forall P (map Img evs)).
  { intros P evs H. induction evs; constructor; auto. }
  assert (Hb : forall bs a e1 e2 l o, block_acts bs a e1 e2 l o ->
    Forall (fun x => match x with Img _ | Placed _ _ _ => false = true | Fits _ _ _ | Wrote _ _ _ | Last _ => false = false end) l).
  { intros bs a e1 e2 l o K. inversion K; subst; repeat (apply Forall_cons; [reflexivity|]); apply Forall_nil. }
  intros c l r K. destruct c as [bld off hm|off hm|a off|addr|bld addr c|p|p|p]; destruct K as (o & -> & K); cbn [loading].
  - assert (Ht : forall ps c0 l0 o0, table_acts bld off ps c0 l0 o0 ->
      Forall (fun x => match x with Img _ | Placed _ _ _ => true = true | Fits _ _ _ | Wrote _ _ _ | Last _ => true = false end) l0).
    { assert (Hp : forall p l0 o0, ph_acts bld off p l0 o0 ->
        Forall (fun x => match x with Img _ | Placed _ _ _ => true = true | Fits _ _ _ | Wrote _ _ _ | Last _ => true = false end) l0).
      { intros p l0 o0 K0. inversion K0; subst; try (apply Hi; reflexivity); repeat (apply Forall_cons; [reflexivity|]); apply Forall_nil. }
      induction 1; [apply Forall_nil|eapply Hp; eassumption..|]. apply Forall_app. split; [eapply Hp; eassumption|assumption]. }
    inversion K; subst; try (apply Hi; reflexivity); repeat (apply Forall_cons; [reflexivity|]); try apply Forall_nil.
    apply Forall_app. split; [apply Hi; reflexivity|eapply Ht; eassumption].
  - inversion K; subst; repeat (apply Forall_cons; [reflexivity|]); apply Forall_nil.
  - inversion K; subst; repeat (apply Forall_cons; [reflexivity|]); apply Forall_nil.
  - inversion K; subst; repeat (apply Forall_cons; [reflexivity|]); apply Forall_nil.
  - inversion K; subst; repeat (apply Forall_cons; [reflexivity|]); apply Forall_nil.
  - exact (Hb _ _ _ _ _ _ K).
  - exact (Hb _ _ _ _ _ _ K).
  - inversion K as [ | |t a l0 e Et Ea B1|t a l1 l2 e Et Ea B1 B2|t a l1 l2 l3 o0 Et Ea B1 B2 M]; subst; try apply Forall_nil.
    + exact (Hb _ _ _ _ _ _ B1).
    + apply Forall_app. split; [exact (Hb _ _ _ _ _ _ B1)|exact (Hb _ _ _ _ _ _ B2)].
    + apply Forall_app. split; [exact (Hb _ _ _ _ _ _ B1)|]. apply Forall_app. split; [exact (Hb _ _ _ _ _ _ B2)|].
      inversion M; subst; repeat (apply Forall_cons; [reflexivity|]); apply Forall_nil.
Qed.

(** ** With vm-memory's guest memory these are the functions of the other files *)
Lemma roomy_not_fuel {S} (src : source S) bld be off hm s m s' m' o : plausible src -> roomy src -> wf_mem m = true ->
  gelf_load src bld be off hm s m = (s', m', o) -> o <> Panic OutOfFuel.
Proof. intros P R Hw H ->. destruct (Props_Talk.C92_panics _ _ _ _ _ _ _ _ _ _ _ P R Hw H) as (E1 & _). discriminate. Qed.
Theorem C99_vm_elf : forall S (src : source S) bld be off highmem s m s' m' o, plausible src -> roomy src -> wf_mem m = true ->
  gelf_load src bld be off highmem s m = (s', m', o) -> exec (vm_world src be) (elf_prog bld off highmem) (s, m) = ((s', m'), o).
Proof. intros S src bld be off hm s m s' m' o P R Hw H. exact (same_elf src be bld off hm _ _ _ _ _ H (roomy_not_fuel _ _ _ _ _ _ _ _ _ _ P R Hw H)). Qed.
Theorem C99_vm_bz : forall S (src : source S) be off highmem s m s' m' o, plausible src -> roomy src -> wf_mem m = true ->
  (forall k, off = Some k -> k < 2 ^ 64) ->
  gbz_load src be off highmem s m = (s', m', o) -> exec (vm_world src be) (bz_prog off highmem) (s, m) = ((s', m'), o).
Proof. intros S src be off hm s m s' m' o P R Hw Ho H. exact (same_bz src be off hm _ _ _ _ _ H (proj1 (Props_Talk.C91_bz_confined _ _ _ _ _ _ _ _ _ _ P R Hw Ho H) _)). Qed.
Theorem C99_vm_pe : forall S (src : source S) a be off highmem s m s' m' o, plausible src -> roomy src -> wf_mem m = true ->
  gpe_load src a be off highmem s m = (s', m', o) -> exec (vm_world src be) (pe_prog a off) (s, m) = ((s', m'), o).
Proof. intros S src a be off hm s m s' m' o P R Hw H. exact (same_pe src be a off hm _ _ _ _ _ H (proj1 (Props_Talk.C90_pe_confined _ _ _ _ _ _ _ _ _ _ _ P R Hw H) _)). Qed.
Theorem C99_vm_dtb : forall S (src : source S) be addr s m s' m' o, plausible src -> roomy src -> wf_mem m = true ->
  gload_dtb src be addr s m = (s', m', o) -> exec (vm_world src be) (dtb_prog addr) (s, m) = ((s', m'), o).
Proof. intros S src be addr s m s' m' o P R Hw H. exact (same_dtb src be addr _ _ _ _ _ H (proj1 (Props_Talk.C90_dtb_confined _ _ _ _ _ _ _ _ _ P R Hw H) _)). Qed.
(** In particular for files. *)
Theorem C99_files : forall be r m r' m', wf_reader r -> wf_mem m = true ->
  (forall bld off highmem o, elf_load bld be off highmem r m = (r', m', o) ->
     exec (vm_world reader_source be) (elf_prog bld off highmem) (r, m) = ((r', m'), o)) /\
  (forall off highmem o, 0x1f1 <= rd_maxpos r -> (forall a, off = Some a -> a < 2 ^ 64) -> bz_load be off highmem r m = (r', m', o) ->
     exec (vm_world reader_source be) (bz_prog off highmem) (r, m) = ((r', m'), o)) /\
  (forall a off highmem o, pe_load a be off highmem r m = (r', m', o) ->
     exec (vm_world reader_source be) (pe_prog a off) (r, m) = ((r', m'), o)) /\
  (forall addr o, load_dtb be addr r m = (r', m', o) ->
     exec (vm_world reader_source be) (dtb_prog addr) (r, m) = ((r', m'), o)).
Proof.
  intros be r m r' m' Hr Hw. split; [|split; [|split]].
  - intros bld off hm o H. refine (same_elf reader_source be bld off hm _ _ _ _ _ _ (C30_elf_no_panic _ _ _ _ _ _ _ _ _ Hr Hw H _)). rewrite gelf_load_reader. exact H.
  - intros off hm o Hx Ho H. assert (Hrun : bz_runs be off hm r m m' o) by (split; [exact Hr|]; split; [exact Hx|]; split; [exact Hw|]; split; [exact Ho|eauto]).
    refine (same_bz reader_source be off hm _ _ _ _ _ _ (proj1 (C37_bz_errors_frame _ _ _ _ _ _ _ Hrun) _)). rewrite gbz_load_reader. exact H.
  - intros a off hm o H. assert (Hrun : pe_runs a be off hm r m m' o) by (split; [exact Hr|]; split; [exact Hw|eauto]).
    refine (same_pe reader_source be a off hm _ _ _ _ _ _ (proj1 (C40_pe_errors_frame _ _ _ _ _ _ _ _ Hrun) _)). rewrite gpe_load_reader. exact H.
  - intros addr o H. assert (Hrun : dtb_runs be addr r m m' o) by (split; [exact Hr|]; split; [exact Hw|eauto]).
    refine (same_dtb reader_source be addr _ _ _ _ _ _ (proj2 (C42_dtb_frame _ _ _ _ _ _ Hrun) _)). rewrite gload_dtb_reader. exact H.
Qed.
Theorem C99_vm_cmdline : forall S (src : source S) bld be addr c s m m' o, wf_mem m = true ->
  load_cmdline bld be m addr c = (m', o) -> exec (vm_world src be) (cmdline_prog bld addr c) (s, m) = ((s, m'), o).
Proof.
  intros S src bld be addr c s m m' o Hw H. unfold load_cmdline in H. unfold cmdline_prog. destruct (as_cstring c) as [t|e|w]; [|injection H as <- <-; reflexivity..].
  cbv zeta in H. destruct (usub bld (lenN (bytes_with_nul t)) 1) as [d|e|w]; [|injection H as <- <-; reflexivity..].
  cbn [pbind]. destruct (checked_add addr d) as [e|]; [|injection H as <- <-; reflexivity]. cbn [ok_or pbind last exec vm_world on_last snd].
  destruct (last_addr m <? e); [injection H as <- <-; reflexivity|]. rewrite write_vm by exact Hw.
  destruct (write_slice be m (bytes_with_nul t) addr) as [m1 o1] eqn:Ew. pose proof (write_slice_frame _ _ _ _ _ _ Hw Ew) as (_ & [ -> | -> ]); injection H as <- <-; reflexivity.
Qed.
Theorem C99_vm_boot : forall S (src : source S) be p s m m' o, wf_mem m = true ->
  (linux_write_bootparams be p m = (m', o) -> exec (vm_world src be) (linux_prog p) (s, m) = ((s, m'), o)) /\
  (fdt_write_bootparams be p m = (m', o) -> exec (vm_world src be) (fdt_prog p) (s, m) = ((s, m'), o)) /\
  (pvh_write_bootparams be p m = (m', o) -> exec (vm_world src be) (pvh_prog p) (s, m) = ((s, m'), o)).
Proof.
  intros S src be p s m m' o Hw. split; [|split]; intros H.
  - unfold linux_prog. rewrite block_vm by exact Hw. unfold linux_write_bootparams in H. now rewrite H.
  - unfold fdt_prog. rewrite block_vm by exact Hw. unfold fdt_write_bootparams in H. now rewrite H.
  - unfold pvh_prog, pvh_write_bootparams in *. destruct (sections p) as [t|]; [|injection H as <- <-; reflexivity].
    destruct (sections_start p) as [a|]; [|injection H as <- <-; reflexivity]. cbn [ok_or pbind].
    assert (Hcw : forall m1 a1 bs e1 e2 m2 o2, wf_mem m1 = true -> check_and_write be m1 a1 bs e1 e2 = (m2, o2) -> regions m2 = regions m1).
    { intros m1 a1 bs e1 e2 m2 o2 W1 C. unfold check_and_write in C. destruct (checked_offset m1 a1 (lenN bs)); [|injection C as <- <-; reflexivity].
      destruct (write_slice be m1 bs a1) as [m3 o3] eqn:Ew. pose proof (write_slice_frame _ _ _ _ _ _ W1 Ew) as ((Rg & _) & [ -> | -> ]); injection C as <- <-; exact Rg. }
    assert (Hb : forall B a1 bs e1 e2 (k : prog berror B) m1 s1, wf_mem m1 = true ->
      exec (vm_world src be) (pbind (fits a1 (lenN bs) e1) (fun _ => pbind (write bs a1 e2) (fun _ => k))) (s1, m1) =
      match check_and_write be m1 a1 bs e1 e2 with
      | (m2, Ok _) => exec (vm_world src be) k (s1, m2)
      | (m2, Err e) => ((s1, m2), Err e)
      | (m2, Panic w) => ((s1, m2), Panic w)
      end).
    { intros B a1 bs e1 e2 k m1 s1 W1. pose proof (block_vm src be bs a1 e1 e2 s1 m1 W1) as Q.
      rewrite exec_bind in Q. rewrite exec_bind. destruct (exec (vm_world src be) (fits a1 (lenN bs) e1) (s1, m1)) as [w2 [u|e|w]].
      - rewrite exec_bind. rewrite Q. destruct (check_and_write be m1 a1 bs e1 e2) as [m2 [[]|e|w]]; reflexivity.
      - destruct (check_and_write be m1 a1 bs e1 e2) as [m2 [[]|e'|w]]; cbn in Q; try discriminate; injection Q as -> ->; reflexivity.
      - destruct (check_and_write be m1 a1 bs e1 e2) as [m2 [[]|e'|w']]; cbn in Q; try discriminate; injection Q as -> ->; reflexivity. }
    rewrite Hb by exact Hw. destruct (check_and_write be m a t _ _) as [m1 [[]|e|w]] eqn:C1; [|injection H as <- <-; reflexivity..].
    assert (W1 : wf_mem m1 = true) by (rewrite (wf_mem_regions m m1); [exact Hw|exact (Hcw _ _ _ _ _ _ _ Hw C1)]).
    rewrite Hb by exact W1. destruct (check_and_write be m1 (header_start p) _ _ _) as [m2 [[]|e|w]] eqn:C2; [|injection H as <- <-; reflexivity..].
    assert (W2 : wf_mem m2 = true) by (rewrite (wf_mem_regions m1 m2); [exact W1|exact (Hcw _ _ _ _ _ _ _ W1 C2)]).
    destruct (modules p) as [ms|]; [|injection H as <- <-; reflexivity]. destruct (modules_start p) as [ma|]; [|injection H as <- <-; reflexivity].
    cbn [ok_or pbind]. rewrite write_vm by exact W2. destruct (write_slice be m2 ms ma) as [m3 o3] eqn:Ew.
    pose proof (write_slice_frame _ _ _ _ _ _ W2 Ew) as (_ & [ -> | -> ]); injection H as <- <-; reflexivity.
Qed.
Theorem C99_vm_fair : forall S (src : source S) be, plausible src -> fair_world (vm_world src be).
Proof.
  intros S src be (P1 & P2 & _) w x w' H. destruct x as [[g|p g|d g|n g|n g|n g]|a n ok|a n ok|bs a ok|y]; cbn [fair]; try exact I.
  - destruct g as [bs|]; [|exact I]. cbn in H. destruct (so_read_exact src (fst w) n) as [s' g'] eqn:Er. injection H as _ ->. exact (P1 _ _ _ _ Er).
  - destruct g as [bs|]; [|exact I]. cbn in H. destruct (so_read_volatile src (fst w) n) as [s' g'] eqn:Er. injection H as _ ->. exact (P2 _ _ _ _ Er).
Qed.

(** ** Worlds to which the theorems apply: one that follows a script *)
Definition play : world (list act) := mkWorld (list act)
  (fun w => match w with Img (SoughtEnd g) :: r => (r, g) | _ => (w, None) end)
  (fun w p => match w with Img (SoughtTo q g) :: r => if q =? p then (r, g) else (w, None) | _ => (w, None) end)
  (fun w d => match w with Img (SoughtBy e g) :: r => if (e =? d)%Z then (r, g) else (w, None) | _ => (w, None) end)
  (fun w n => match w with Img (ReadAll k (Some bs)) :: r => if lenN bs =? n then (r, Some bs) else (w, None) | _ => (w, None) end)
  (fun w n => match w with Img (ReadSome k (Some bs)) :: r => if lenN bs <=? n then (r, Some bs) else (w, None) | _ => (w, None) end)
  (fun w a n => match w with Placed b k ok :: r => if (b =? a) && (k =? n) then (r, ok) else (w, false) | _ => (w, false) end)
  (fun w a n => match w with Fits b k ok :: r => if (b =? a) && (k =? n) then (r, ok) else (w, false) | _ => (w, false) end)
  (fun w bs a => match w with Wrote cs b ok :: r => if b =? a then (r, ok) else (w, false) | _ => (w, false) end)
  (fun w => match w with Last x :: r => (r, x) | _ => (w, 0) end).
Example C99_play_fair : fair_world play.
Proof.
  intros w x w' H. destruct x as [[g|p g|d g|n g|n g|n g]|a n ok|a n ok|bs a ok|y]; cbn [fair]; try exact I; destruct g as [bs|]; try exact I; cbn in H;
    destruct w as [|[[g|p g|d g|k g|k g|k g]| | | |] w]; try discriminate; destruct g as [cs|]; try discriminate.
  - destruct (N.eqb_spec (lenN cs) n); [|discriminate]. injection H as _ <-. assumption.
  - destruct (N.leb_spec (lenN cs) n); [|discriminate]. injection H as _ <-. assumption.
Qed.
(** An ELF load: two segments, of which memory refuses the second.  The answer to the third is never asked for. *)
Definition entry (ty offset paddr filesz memsz : N) : bytes := Props_Talk.an_entry ty offset paddr filesz memsz.
Definition half_loaded : list act :=
  map Img [SoughtTo 0 (Some 0); ReadAll 64 (Some (Props_Talk.a_header 3)); SoughtTo 64 (Some 64);
           ReadAll 56 (Some (entry 1 0x1000 0x200000 16 32)); ReadAll 56 (Some (entry 1 0x2000 0x300000 8 8)); ReadAll 56 (Some (entry 1 0x3000 0x400000 8 8));
           SoughtTo 0x1000 (Some 5)] ++
  [Placed 0x200000 16 true; Img (SoughtTo 0x2000 (Some 6)); Placed 0x300000 8 false; Placed 0x400000 8 true].
Example C99_half_loaded : exec play (elf_prog false None None) half_loaded = ([Placed 0x400000 8 true], Err (LElf ReadKernelImage)).
Proof. lazy. reflexivity. Qed.
(** A guest memory that accepts everything makes an overflow reachable that vm-memory's does not (C39-C42). *)
Definition arm_header (text size : N) : bytes := zeros 8 ++ le_enc 8 text ++ le_enc 8 size ++ zeros 32 ++ le_enc 4 0x644d5241 ++ zeros 4.
Definition too_far : list act :=
  [Img (SoughtEnd (Some 0x1000)); Img (SoughtTo 0 (Some 0)); Img (ReadAll 64 (Some (arm_header (2 ^ 64 - 0x800) 0x1000))); Img (SoughtTo 0 (Some 0));
   Placed (2 ^ 64 - 0x800) 0x1000 true].
Example C99_pe_overflow : exec play (pe_prog Aarch64 None) too_far = ([], Err MemoryOverflow).
Proof. lazy. reflexivity. Qed.
Example C99_pvh_applies :
  exec play (pvh_prog cfg_params) [Fits 0x100 2 true; Wrote [] 0x100 true; Fits 0xffe 3 true; Wrote [] 0xffe true; Wrote [] 0x3fff false] =
  ([], Err (BPvh ModulesSetup)).
Proof. lazy. reflexivity. Qed.
