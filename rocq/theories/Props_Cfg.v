(** * Props_Cfg: C121, every selection of target and features gives a crate that is complete and offers what the documentation says. *)
From Coq Require Import List String Bool.
From Verif Require Cfg.
From Verif Require Import Base Base_proofs Io Mem Text Cmdline Layout Loader Elf BzImage Pe BootParams Configurators SpecVmm.
Import Cfg.
Import ListNotations.
Local Open Scope string_scope.
Local Open Scope list_scope.

(** ** What is said *)
(** The features in force: the requested ones, and what those need. *)
Inductive in_force (requested : list string) : string -> Prop :=
| asked_for f : In f requested -> in_force requested f
| needed_by g l f : in_force requested g -> In (g, l) cargo_features -> In f l -> in_force requested f.

(** What README.md and the crate's documentation (src/lib.rs, src/loader/mod.rs:12-18) offer, by what one would write to use it: the
    targets ([everywhere]: all there are, now and later) and the features it takes. *)
Definition everywhere : list string := [].
Definition pc : list string := ["x86"; "x86_64"].
Definition device_tree : list string := ["aarch64"; "riscv64"].
Definition available (arch : string) (requested : list string) (targets features : list string) : Prop :=
  (targets = everywhere \/ In arch targets) /\ forall f, In f features -> in_force requested f.
Definition offered : list (path * list string * list string) :=
  [(["cmdline"; "Cmdline"], everywhere, []); (["loader"; "Cmdline"], everywhere, []); (["loader"; "load_cmdline"], everywhere, []);
   (["loader"; "KernelLoader"], everywhere, []); (["loader"; "KernelLoaderResult"], everywhere, []);
   (["loader"; "elf"; "Elf"], pc, ["elf"]); (["loader"; "Elf"], pc, ["elf"]);
   (["loader"; "bzimage"; "BzImage"], pc, ["bzimage"]); (["loader"; "BzImage"], pc, ["bzimage"]);
   (["loader"; "pe"; "PE"], device_tree, ["pe"]); (["loader"; "PE"], device_tree, ["pe"]);
   (["loader"; "load_dtb"], device_tree, ["pe"]);
   (["loader"; "arm64_image_header"], ["aarch64"], ["pe"]); (["loader"; "riscv64_image_header"], ["riscv64"], ["pe"]);
   (["bootparam"; "boot_params"], pc, []); (["loader"; "bootparam"; "setup_header"], pc, []);
   (["loader"; "elf"; "start_info"; "hvm_start_info"], pc, ["elf"]); (["start_info"; "hvm_memmap_table_entry"], pc, ["elf"]);
   (["elf"; "Elf64_Ehdr"], pc, ["elf"]);
   (["configurator"; "BootParams"], everywhere, ["elf"]); (["configurator"; "BootConfigurator"], everywhere, ["elf"]);
   (["configurator"; "linux"; "LinuxBootConfigurator"], pc, ["elf"]); (["configurator"; "pvh"; "PvhBootConfigurator"], pc, ["elf"]);
   (["configurator"; "fdt"; "FdtBootConfigurator"], device_tree, ["elf"]);
   (["loader"; "KernelLoaderResult"; "setup_header"], pc, []); (["loader"; "KernelLoaderResult"; "pvh_boot_cap"], pc, ["elf"])].
(** What is not to be reached from outside. *)
Definition kept_private : list path :=
  [["loader_gen"]; ["loader_gen"; "bootparam"; "setup_header"]; ["configurator"; "x86_64"]; ["configurator"; "x86_64"; "linux"; "LinuxBootConfigurator"]].

(** ** Finitely many cases in the end *)
Definition archs : list string := ["x86"; "x86_64"; "aarch64"; "riscv64"; "another"].
Definition named (fs : list string) (f : string) : bool := existsb (String.eqb f) fs.
Definition closed_sets : list (list string) := [[]; ["elf"]; ["elf"; "pe"]; ["elf"; "bzimage"]; ["elf"; "pe"; "bzimage"]].
Definition cases : list config := flat_map (fun a => map (fun fs => mkConfig a (named fs)) closed_sets) archs.
Definition feature_names : list string := ["elf"; "pe"; "bzimage"].
Definition agree (c d : config) : Prop :=
  (forall a, In a ["x86"; "x86_64"; "aarch64"; "riscv64"] -> String.eqb (target_arch c) a = String.eqb (target_arch d) a) /\
  (forall f, In f feature_names -> feature_on c f = feature_on d f).
Fixpoint known (g : cfg) : bool :=
  match g with
  | Target a => named ["x86"; "x86_64"; "aarch64"; "riscv64"] a
  | Feature f => named feature_names f
  | All l => forallb known l
  | Any l => forallb known l
  | Not g => known g
  end.
Section CfgInd.
Context (P : cfg -> Prop) (HT : forall a, P (Target a)) (HF : forall f, P (Feature f))
  (HA : forall l, Forall P l -> P (All l)) (HO : forall l, Forall P l -> P (Any l)) (HN : forall g, P g -> P (Not g)).
Fixpoint cfg_induct (g : cfg) : P g :=
  let all := fix go l : Forall P l := match l with [] => Forall_nil _ | a :: r => Forall_cons a (cfg_induct a) (go r) end in
  match g with Target a => HT a | Feature f => HF f | All l => HA l (all l) | Any l => HO l (all l) | Not g => HN g (cfg_induct g) end.
End CfgInd.
Lemma named_in l x : named l x = true -> In x l.
Proof. unfold named. rewrite existsb_exists. intros (y & Hy & E). apply String.eqb_eq in E. subst. exact Hy. Qed.
Lemma agree_holds c d g : agree c d -> known g = true -> holds c g = holds d g.
Proof.
  intros [A F]. induction g as [a|f|l IH|l IH|g IH] using cfg_induct; cbn [known holds]; intros K.
  - apply A. apply named_in. exact K.
  - apply F. apply named_in. exact K.
  - induction IH as [|x l Hx _ IH]; [reflexivity|]. cbn [forallb] in *. apply andb_prop in K. destruct K as [Kx Kl]. rewrite Hx, IH by assumption. reflexivity.
  - induction IH as [|x l Hx _ IH]; [reflexivity|]. cbn [forallb existsb] in *. apply andb_prop in K. destruct K as [Kx Kl]. rewrite Hx, IH by assumption. reflexivity.
  - rewrite (IH K). reflexivity.
Qed.
Lemma agree_on c d gs : agree c d -> forallb known gs = true -> on c gs = on d gs.
Proof.
  intros A K. unfold on. induction gs as [|g gs IH]; [reflexivity|]. cbn [forallb] in *. apply andb_prop in K. destruct K as [K1 K2].
  rewrite (agree_holds c d g A K1), IH by assumption. reflexivity.
Qed.
Definition guard_of (e : entry) : list cfg := match e with Def _ _ _ g => g | Use _ _ g _ => g | Glob _ g _ => g end.
Lemma crate_known : Forall (fun e => forallb known (guard_of e) = true) crate.
Proof. repeat (apply Forall_cons; [reflexivity|]). apply Forall_nil. Qed.
Lemma code_known : Forall (fun r => forallb known (under r) = true) code.
Proof. repeat (apply Forall_cons; [reflexivity|]). apply Forall_nil. Qed.
Lemma flat_map_same {A B} (f g : A -> list B) l : (forall a, In a l -> f a = g a) -> flat_map f l = flat_map g l.
Proof. intros H. induction l as [|a l IH]; [reflexivity|]. cbn [flat_map]. rewrite H by (left; reflexivity). rewrite IH; [reflexivity|]. intros b Hb. apply H. right. exact Hb. Qed.
Lemma walk_same s s' : (forall m n, s m n = s' m n) -> forall p m, walk s m p = walk s' m p.
Proof.
  intros H p. induction p as [|n p IH]; intros m; [reflexivity|]. cbn [walk]. rewrite H. apply flat_map_same. intros q _. apply IH.
Qed.
Lemma agree_step c d : agree c d -> forall fuel o m n, step fuel c o m n = step fuel d o m n.
Proof.
  intros A fuel. induction fuel as [|f IH]; [reflexivity|]. pose proof crate_known as CK. rewrite Forall_forall in CK.
  assert (G : forall e, In e crate -> on c (guard_of e) = on d (guard_of e)) by (intros e He; apply agree_on; [exact A|apply CK; exact He]).
  assert (W : forall t, walk (step f c false) [] t = walk (step f d false) [] t) by (intros t; apply walk_same; intros; apply IH).
  intros o m n. cbn [step].
  match goal with |- match ?x with [] => ?u | _ => _ end = match ?y with [] => ?v | _ => _ end =>
    assert (E : x = y); [|rewrite E; assert (E2 : u = v); [|rewrite E2; reflexivity]] end.
  - apply flat_map_same. intros e He. pose proof (G e He) as Ge. destruct e; cbn [guard_of] in Ge; try rewrite Ge; try rewrite W; reflexivity.
  - apply flat_map_same. intros e He. pose proof (G e He) as Ge. destruct e; cbn [guard_of] in Ge; try reflexivity. rewrite Ge, W.
    destruct (same_path m m0 && on d g); [|reflexivity]. apply flat_map_same. intros a _. apply IH.
Qed.
Lemma agree_inside c d p : agree c d -> inside c p = inside d p.
Proof. intros A. apply walk_same. intros. apply agree_step. exact A. Qed.
Lemma agree_outside c d p : agree c d -> outside c p = outside d p.
Proof. intros A. apply walk_same. intros. apply agree_step. exact A. Qed.

(** ** Features *)
Lemma on_next n r : turned_on (S n) r "elf" = (turned_on n r "elf" || (turned_on n r "bzimage" || turned_on n r "pe")) /\
  turned_on (S n) r "pe" = (turned_on n r "pe" || turned_on n r "default") /\
  turned_on (S n) r "bzimage" = turned_on n r "bzimage" /\ turned_on (S n) r "default" = turned_on n r "default".
Proof.
  cbn [turned_on cargo_features existsb fst snd String.eqb Ascii.eqb Bool.eqb].
  repeat match goal with |- context [turned_on n r ?f] => destruct (turned_on n r f) end; cbn; tauto.
Qed.
Lemma turned_on_all n r : turned_on (S (S n)) r "elf" = (named r "default" || named r "bzimage" || named r "pe" || named r "elf") /\
  turned_on (S (S n)) r "pe" = (named r "default" || named r "pe") /\ turned_on (S (S n)) r "bzimage" = named r "bzimage" /\
  turned_on (S (S n)) r "default" = named r "default".
Proof.
  induction n as [|n IH].
  - pose proof (on_next 1 r) as (A & B & C & D). pose proof (on_next 0 r) as (A0 & B0 & C0 & D0).
    rewrite A, B, C, D, A0, B0, C0, D0. cbn [turned_on]. fold (named r "elf") (named r "pe") (named r "bzimage") (named r "default").
    destruct (named r "elf"), (named r "pe"), (named r "bzimage"), (named r "default"); tauto.
  - pose proof (on_next (S (S n)) r) as (A & B & C & D). destruct IH as (A0 & B0 & C0 & D0). rewrite A, B, C, D, A0, B0, C0, D0.
    destruct (named r "elf"), (named r "pe"), (named r "bzimage"), (named r "default"); tauto.
Qed.
Lemma named_iff l x : named l x = true <-> In x l.
Proof. split; [apply named_in|]. intros H. unfold named. rewrite existsb_exists. exists x. split; [exact H|apply String.eqb_refl]. Qed.
Lemma in_force_names r f : in_force r f <->
  (In f r \/ (f = "elf" /\ (In "bzimage" r \/ In "pe" r \/ In "default" r)) \/ (f = "pe" /\ In "default" r)).
Proof.
  split.
  - induction 1 as [f H|g l f H IH Hg Hf]; [tauto|].
    cbn [cargo_features In] in Hg. destruct Hg as [E|[E|[E|[E|[]]]]]; injection E as <- <-; cbn [In] in Hf; (contradiction || destruct Hf as [<-|[]]);
      destruct IH as [IH|[[E _]|[E IH]]]; try discriminate; tauto.
  - intros [H|[[-> [H|[H|H]]]|[-> H]]].
    + apply asked_for. exact H.
    + apply (needed_by r "bzimage" ["elf"]); [apply asked_for; exact H|cbn; tauto|cbn; tauto].
    + apply (needed_by r "pe" ["elf"]); [apply asked_for; exact H|cbn; tauto|cbn; tauto].
    + apply (needed_by r "pe" ["elf"]); [|cbn; tauto|cbn; tauto]. apply (needed_by r "default" ["pe"]); [apply asked_for; exact H|cbn; tauto|cbn; tauto].
    + apply (needed_by r "default" ["pe"]); [apply asked_for; exact H|cbn; tauto|cbn; tauto].
Qed.
Lemma turned_on_sound r : forall n f, turned_on n r f = true -> in_force r f.
Proof.
  induction n as [|n IH]; intros f H; cbn [turned_on] in H.
  - apply asked_for. apply named_iff. exact H.
  - apply orb_prop in H. destruct H as [H|H]; [apply IH; exact H|]. rewrite existsb_exists in H. destruct H as ([g l] & Hg & H).
    apply andb_prop in H. destruct H as [H1 H2]. apply (needed_by r g l); [apply IH; exact H1|exact Hg|apply named_in; exact H2].
Qed.
Lemma turned_on_asked r n f : In f r -> turned_on n r f = true.
Proof. intros H. induction n as [|n IH]; cbn [turned_on]; [apply named_iff; exact H|]. rewrite IH. reflexivity. Qed.

(** ** C121 *)
(** Exactly the requested features and what they need are on. *)
Theorem C121_features : forall arch requested f, feature_on (built_for arch requested) f = true <-> in_force requested f.
Proof.
  intros arch r f. cbn [built_for feature_on]. change (List.length cargo_features) with 4%nat. split; [apply turned_on_sound|].
  intros H. pose proof (turned_on_all 2 r) as (A & B & _ & _).
  apply in_force_names in H. destruct H as [H|[[-> H]|[-> H]]].
  - apply turned_on_asked. exact H.
  - rewrite A. destruct H as [H|[H|H]]; apply named_iff in H; rewrite H; destruct (named r "default"), (named r "bzimage"), (named r "pe"); reflexivity.
  - rewrite B. apply named_iff in H. rewrite H. reflexivity.
Qed.

Lemma pick arch r : exists a fs, In a archs /\ In fs closed_sets /\ agree (built_for arch r) (mkConfig a (named fs)) /\
  (forall x, In x ["x86"; "x86_64"; "aarch64"; "riscv64"] -> arch = x <-> a = x) /\ (forall f, In f feature_names -> in_force r f <-> In f fs).
Proof.
  assert (HA : exists a, In a archs /\ forall x, In x ["x86"; "x86_64"; "aarch64"; "riscv64"] -> arch = x <-> a = x).
  { destruct (in_dec string_dec arch ["x86"; "x86_64"; "aarch64"; "riscv64"]) as [H|H].
    - exists arch. split; [unfold archs; cbn in *; tauto|]. intros x _. reflexivity.
    - exists "another". split; [cbn; tauto|]. intros x Hx. split; [intros ->; contradiction|]. intros <-.
      cbn in Hx. destruct Hx as [E|[E|[E|[E|[]]]]]; discriminate E. }
  assert (HF : exists fs, In fs closed_sets /\ forall f, In f feature_names -> turned_on 4 r f = named fs f).
  { pose proof (turned_on_all 2 r) as (A & B & C & _).
    set (d := named r "default") in *. set (b := named r "bzimage") in *. set (p := named r "pe") in *. set (e := named r "elf") in *.
    exists ((if d || b || p || e then ["elf"] else []) ++ (if d || p then ["pe"] else []) ++ (if b then ["bzimage"] else [])). split.
    - clear. destruct d, b, p, e; cbn; tauto.
    - intros f Hf. cbn in Hf. destruct Hf as [<-|[<-|[<-|[]]]]; [rewrite A|rewrite B|rewrite C]; clear; destruct d, b, p, e; reflexivity. }
  destruct HA as (a & Ha & Haa), HF as (fs & Hfs & Hff). exists a, fs. split; [exact Ha|]. split; [exact Hfs|]. split; [split|split].
  - intros x Hx. cbn [built_for target_arch]. specialize (Haa x Hx).
    destruct (String.eqb_spec arch x), (String.eqb_spec a x); try reflexivity; exfalso; tauto.
  - intros f Hf. cbn [built_for feature_on]. apply Hff. exact Hf.
  - exact Haa.
  - intros f Hf. rewrite <- (C121_features arch). cbn [built_for feature_on]. change (List.length cargo_features) with 4%nat.
    rewrite (Hff f Hf). apply named_iff.
Qed.
Lemma in_cases a fs : In a archs -> In fs closed_sets -> In (mkConfig a (named fs)) cases.
Proof. intros A F. unfold cases. apply in_flat_map. exists a. split; [exact A|]. apply in_map_iff. exists fs. split; [reflexivity|exact F]. Qed.

(** Code that is compiled, and what it names. *)
Definition compiled (c : config) (r : reference) : Prop := inside c (in_module r) <> [] /\ on c (under r) = true.
Definition means_one (l : list path) : bool := match l with [_] => true | _ => false end.
Definition is_there (l : list path) : bool := match l with [] => false | _ => true end.

(** Whatever is compiled finds everything it names, and every name means one thing. *)
Theorem C121_complete : forall arch requested r p, let c := built_for arch requested in
  In r code -> compiled c r -> In p (needs r) -> exists q, inside c p = [q].
Proof.
  intros arch req r p c Hr [M U] Hp. destruct (pick arch req) as (a & fs & Ha & Hfs & A & _). pose proof (in_cases a fs Ha Hfs) as Hd.
  subst c. rewrite (agree_inside _ _ _ A). rewrite (agree_inside _ _ _ A) in M.
  pose proof code_known as K. rewrite Forall_forall in K. rewrite (agree_on _ _ _ A (K r Hr)) in U.
  assert (T : forallb (fun d => forallb (fun r => implb (is_there (inside d (in_module r)) && on d (under r)) (forallb (fun p => means_one (inside d p)) (needs r))) code) cases = true)
    by (vm_compute; reflexivity).
  rewrite forallb_forall in T. specialize (T _ Hd). rewrite forallb_forall in T. specialize (T _ Hr). rewrite U, andb_true_r in T.
  destruct (inside _ (in_module r)); [contradiction|]. cbn [is_there implb] in T. rewrite forallb_forall in T. specialize (T _ Hp).
  destruct (inside _ p) as [|q [|]]; try discriminate T. exists q. reflexivity.
Qed.

(** Every re-export that is compiled has something to re-export, and only one thing. *)
Definition reexport (e : entry) : option (path * path) :=
  match e with Def _ _ _ _ => None | Use m _ _ t => Some (m, t) | Glob m _ t => Some (m, t) end.
Theorem C121_reexports : forall arch requested e m t, let c := built_for arch requested in
  In e crate -> reexport e = Some (m, t) -> inside c m <> [] -> on c (guard_of e) = true -> exists q, inside c t = [q].
Proof.
  intros arch req e m t c He R M G. destruct (pick arch req) as (a & fs & Ha & Hfs & A & _). pose proof (in_cases a fs Ha Hfs) as Hd.
  subst c. rewrite (agree_inside _ _ _ A). rewrite (agree_inside _ _ _ A) in M.
  pose proof crate_known as K. rewrite Forall_forall in K. rewrite (agree_on _ _ _ A (K e He)) in G.
  assert (T : forallb (fun d => forallb (fun e => match reexport e with Some (m, t) => implb (is_there (inside d m) && on d (guard_of e)) (means_one (inside d t)) | None => true end) crate) cases = true)
    by (vm_compute; reflexivity).
  rewrite forallb_forall in T. specialize (T _ Hd). rewrite forallb_forall in T. specialize (T _ He). rewrite R, G, andb_true_r in T.
  destruct (inside _ m); [contradiction|]. cbn [is_there implb] in T. destruct (inside _ t) as [|q [|]]; try discriminate T. exists q. reflexivity.
Qed.

(** A user finds what the documentation offers exactly on the targets and with the features it takes. *)
Theorem C121_offers : forall arch requested p targets features, let c := built_for arch requested in
  In (p, targets, features) offered ->
  (available arch requested targets features -> exists q, outside c p = [q]) /\
  (~ available arch requested targets features -> outside c p = []).
Proof.
  intros arch req p ts fts c Hp. destruct (pick arch req) as (a & fs & Ha & Hfs & A & HA & HF). pose proof (in_cases a fs Ha Hfs) as Hd.
  subst c. rewrite (agree_outside _ _ _ A).
  assert (T : forallb (fun d => forallb (fun o => let '(p, ts, fts) := o in
      if (match ts with [] => true | _ => named ts (target_arch d) end) && forallb (feature_on d) fts then means_one (outside d p) else negb (is_there (outside d p))) offered)
      cases = true) by (vm_compute; reflexivity).
  assert (K : forallb (fun o => let '(p, ts, fts) := o in forallb (named ["x86"; "x86_64"; "aarch64"; "riscv64"]) ts && forallb (named feature_names) fts) offered = true)
    by (vm_compute; reflexivity).
  rewrite forallb_forall in T, K. specialize (T _ Hd). specialize (K _ Hp). rewrite forallb_forall in T. specialize (T _ Hp). cbn beta iota in T, K.
  apply andb_prop in K. destruct K as [K1 K2]. rewrite forallb_forall in K1, K2.
  assert (E : (match ts with [] => true | _ => named ts a end) && forallb (named fs) fts = true <-> available arch req ts fts).
  { unfold available. rewrite andb_true_iff, forallb_forall. split; intros [X Y].
    - split.
      + destruct ts as [|t ts]; [left; reflexivity|]. right. apply named_iff in X. specialize (HA a (named_in _ _ (K1 _ X))). rewrite (proj2 HA eq_refl). exact X.
      + intros f Hf. apply HF; [apply named_in; apply K2; exact Hf|]. apply named_iff. apply Y. exact Hf.
    - split.
      + destruct X as [->|X]; [reflexivity|]. destruct ts as [|t ts]; [reflexivity|]. apply named_iff.
        rewrite (proj1 (HA arch (named_in _ _ (K1 _ X))) eq_refl). exact X.
      + intros f Hf. apply named_iff. apply HF; [apply named_in; apply K2; exact Hf|]. apply Y. exact Hf. }
  cbn [target_arch feature_on] in T. change (forallb (feature_on (mkConfig a (named fs))) fts) with (forallb (named fs) fts) in T.
  split; intros H.
  - apply E in H. rewrite H in T. destruct (outside _ p) as [|q [|]]; try discriminate T. exists q. reflexivity.
  - destruct ((match ts with [] => true | _ => named ts a end) && forallb (named fs) fts); [exfalso; apply H; apply E; reflexivity|].
    destruct (outside _ p); [reflexivity|discriminate T].
Qed.
Theorem C121_private : forall arch requested p, In p kept_private -> outside (built_for arch requested) p = [].
Proof.
  intros arch req p Hp. destruct (pick arch req) as (a & fs & Ha & Hfs & A & _). pose proof (in_cases a fs Ha Hfs) as Hd. rewrite (agree_outside _ _ _ A).
  assert (T : forallb (fun d => forallb (fun p => negb (is_there (outside d p))) kept_private) cases = true) by (vm_compute; reflexivity).
  rewrite forallb_forall in T. specialize (T _ Hd). rewrite forallb_forall in T. specialize (T _ Hp). destruct (outside _ p); [reflexivity|discriminate T].
Qed.

(** Where the code of one item differs by target, exactly one of the alternatives is compiled. *)
Theorem C121_one_alternative : forall arch requested p gs, let c := built_for arch requested in
  In (p, gs) alternatives -> inside c p <> [] -> exists g, filter (holds c) gs = [g].
Proof.
  intros arch req p gs c H M. destruct (pick arch req) as (a & fs & Ha & Hfs & A & _). pose proof (in_cases a fs Ha Hfs) as Hd. subst c.
  rewrite (agree_inside _ _ _ A) in M.
  assert (K : forallb (fun x => forallb known (snd x)) alternatives = true) by (vm_compute; reflexivity).
  assert (T : forallb (fun d => forallb (fun x => implb (is_there (inside d (fst x))) (match filter (holds d) (snd x) with [_] => true | _ => false end)) alternatives) cases = true)
    by (vm_compute; reflexivity).
  rewrite forallb_forall in T, K. specialize (T _ Hd). specialize (K _ H). rewrite forallb_forall in T. specialize (T _ H). cbn [fst snd] in T, K.
  assert (E : filter (holds (built_for arch req)) gs = filter (holds (mkConfig a (named fs))) gs).
  { clear T H. induction gs as [|g gs IH]; [reflexivity|]. cbn [filter forallb] in *. apply andb_prop in K. destruct K as [K1 K2].
    rewrite (agree_holds _ _ g A K1), (IH K2). reflexivity. }
  rewrite E. destruct (inside _ p); [contradiction|]. cbn [is_there implb] in T. destruct (filter _ gs) as [|g [|]]; try discriminate T. exists g. reflexivity.
Qed.

Fixpoint distinct (l : list string) : bool := match l with [] => true | x :: r => negb (named r x) && distinct r end.
Lemma distinct_nodup l : distinct l = true -> NoDup l.
Proof.
  induction l as [|x l IH]; intros H; [constructor|]. cbn [distinct] in H. apply andb_prop in H. destruct H as [H1 H2].
  constructor; [|apply IH; exact H2]. intros X. apply named_iff in X. rewrite X in H1. discriminate H1.
Qed.
(** Every [match] over an enumeration has exactly one arm for each variant there is, and none for a variant there is not. *)
Theorem C121_matches : forall arch requested e l, let c := built_for arch requested in In (e, l) arms ->
  NoDup (map fst l) /\
  (forall pub n g, In (Def pub e n g) crate -> on c g = true -> exists g', In (n, g') l /\ on c g' = true) /\
  (inside c e <> [] -> forall n g, In (n, g) l -> on c g = true -> exists q, inside c (e ++ [n]) = [q]).
Proof.
  intros arch req e l c H. destruct (pick arch req) as (a & fs & Ha & Hfs & A & _). pose proof (in_cases a fs Ha Hfs) as Hd. subst c.
  assert (K : forallb (fun x => forallb (fun y => forallb known (snd y)) (snd x)) arms = true) by (vm_compute; reflexivity).
  rewrite forallb_forall in K. specialize (K _ H). rewrite forallb_forall in K. cbn [snd] in K.
  pose proof crate_known as CK. rewrite Forall_forall in CK.
  split; [|split].
  - assert (T : forallb (fun x => distinct (map fst (snd x))) arms = true) by (vm_compute; reflexivity).
    rewrite forallb_forall in T. specialize (T _ H). apply distinct_nodup. exact T.
  - intros pub n g Hn G. change g with (guard_of (Def pub e n g)) in G. rewrite (agree_on _ _ _ A (CK _ Hn)) in G.
    assert (T : forallb (fun d => forallb (fun x => forallb (fun y => match y with
        | Def _ m n g => implb (same_path m (fst x) && on d g) (existsb (fun z => String.eqb (fst z) n && on d (snd z)) (snd x))
        | _ => true end) crate) arms) cases = true) by (vm_compute; reflexivity).
    rewrite forallb_forall in T. specialize (T _ Hd). rewrite forallb_forall in T. specialize (T _ H). rewrite forallb_forall in T.
    specialize (T _ Hn). cbn [fst snd guard_of] in T, G. rewrite G in T.
    assert (S : same_path e e = true) by (clear; induction e as [|x e IH]; [reflexivity|]; cbn [same_path]; rewrite String.eqb_refl; exact IH).
    rewrite S in T. cbn [andb implb] in T. rewrite existsb_exists in T. destruct T as ([n' g'] & Hz & Z). cbn [fst snd] in Z. apply andb_prop in Z. destruct Z as [Z1 Z2].
    apply String.eqb_eq in Z1. subst n'. exists g'. split; [exact Hz|]. pose proof (K _ Hz) as Kz. cbn [snd] in Kz. rewrite (agree_on _ _ _ A Kz). exact Z2.
  - intros M n g Hn G. rewrite (agree_inside _ _ _ A) in M. rewrite (agree_inside _ _ _ A). pose proof (K _ Hn) as Kn. cbn [snd] in Kn. rewrite (agree_on _ _ _ A Kn) in G.
    assert (T : forallb (fun d => forallb (fun x => implb (is_there (inside d (fst x)))
        (forallb (fun y => implb (on d (snd y)) (means_one (inside d (fst x ++ [fst y])))) (snd x))) arms) cases = true) by (vm_compute; reflexivity).
    rewrite forallb_forall in T. specialize (T _ Hd). rewrite forallb_forall in T. specialize (T _ H). cbn [fst snd] in T.
    destruct (inside _ e); [contradiction|]. cbn [is_there implb] in T. rewrite forallb_forall in T. specialize (T _ Hn). cbn [fst snd] in T.
    rewrite G in T. cbn [implb] in T. destruct (inside _ (e ++ [n])) as [|q [|]]; try discriminate T. exists q. reflexivity.
Qed.

(** ** Programs outside of the crate *)
(** The benchmarks and the example of the front page find what they use, ... *)
Theorem C121_users : forall arch requested r p, let c := built_for arch requested in
  In r users -> on c (under r) = true -> In p (needs r) -> exists q, outside c p = [q].
Proof.
  intros arch req r p c Hr U Hp. destruct (pick arch req) as (a & fs & Ha & Hfs & A & _). pose proof (in_cases a fs Ha Hfs) as Hd.
  subst c. rewrite (agree_outside _ _ _ A).
  assert (K : forallb (fun r => forallb known (under r)) users = true) by (vm_compute; reflexivity).
  assert (T : forallb (fun d => forallb (fun r => implb (on d (under r)) (forallb (fun p => means_one (outside d p)) (needs r))) users) cases = true) by (vm_compute; reflexivity).
  rewrite forallb_forall in K. rewrite (agree_on _ _ _ A (K r Hr)) in U.
  rewrite forallb_forall in T. specialize (T _ Hd). rewrite forallb_forall in T. specialize (T _ Hr). rewrite U in T. cbn [implb] in T.
  rewrite forallb_forall in T. specialize (T _ Hp). destruct (outside _ p) as [|q [|]]; try discriminate T. exists q. reflexivity.
Qed.
(** ... and have exactly one function to run, except that with a feature on there is none on a target that is neither a PC nor arm64 or
    riscv64: the benchmarks cannot be built there, while the crate itself can. *)
Theorem C121_users_main : forall arch requested who gs, let c := built_for arch requested in In (who, gs) main_functions ->
  (In arch (pc ++ device_tree) \/ ~ (exists f, In f feature_names /\ in_force requested f) -> exists g, filter (holds c) gs = [g]) /\
  (~ In arch (pc ++ device_tree) /\ (exists f, In f feature_names /\ in_force requested f) -> filter (holds c) gs = []).
Proof.
  intros arch req who gs c H. destruct (pick arch req) as (a & fs & Ha & Hfs & A & HA & HF). pose proof (in_cases a fs Ha Hfs) as Hd. subst c.
  assert (K : forallb (fun x => forallb known (snd x)) main_functions = true) by (vm_compute; reflexivity).
  assert (T : forallb (fun d => forallb (fun x => match filter (holds d) (snd x) with [_] => named (pc ++ device_tree) (target_arch d) || negb (existsb (feature_on d) feature_names)
      | [] => negb (named (pc ++ device_tree) (target_arch d)) && existsb (feature_on d) feature_names | _ => false end) main_functions) cases = true)
    by (vm_compute; reflexivity).
  rewrite forallb_forall in T, K. specialize (T _ Hd). specialize (K _ H). rewrite forallb_forall in T. specialize (T _ H). cbn [fst snd target_arch feature_on] in T, K.
  assert (E : filter (holds (built_for arch req)) gs = filter (holds (mkConfig a (named fs))) gs).
  { clear T H. induction gs as [|g gs IH]; [reflexivity|]. cbn [filter forallb] in *. apply andb_prop in K. destruct K as [K1 K2].
    rewrite (agree_holds _ _ g A K1), (IH K2). reflexivity. }
  rewrite E.
  assert (NA : In arch (pc ++ device_tree) <-> named (pc ++ device_tree) a = true).
  { split; intros X.
    - apply named_iff. rewrite (proj1 (HA arch X) eq_refl). exact X.
    - apply named_iff in X. rewrite (proj2 (HA a X) eq_refl). exact X. }
  assert (NF : (exists f, In f feature_names /\ in_force req f) <-> existsb (named fs) feature_names = true).
  { rewrite existsb_exists. split; intros (f & Hf & X); exists f; (split; [exact Hf|]).
    - apply named_iff. apply HF; assumption.
    - apply named_iff in X. apply HF; assumption. }
  rewrite NA, NF. change (existsb (feature_on (mkConfig a (named fs))) feature_names) with (existsb (named fs) feature_names) in T.
  destruct (filter _ gs) as [|g [|]]; [| |discriminate T]; apply Bool.orb_true_iff in T || apply andb_prop in T.
  - destruct T as [T1 T2]. split; [|reflexivity]. intros [X|X]; [rewrite X in T1; discriminate T1|contradiction].
  - split; [intros _; exists g; reflexivity|]. intros [X1 X2]. destruct T as [T|T]; [contradiction|]. rewrite X2 in T. discriminate T.
Qed.

(** ** Errors *)
(** The variant an error value is. *)
Definition loader_variant (e : lerror) : string :=
  match e with
  | LElf _ => "Elf" | LBz _ => "Bzimage" | LPe _ => "Pe" | InvalidCommandLine => "InvalidCommandLine" | CommandLineCopy => "CommandLineCopy"
  | CommandLineOverflow => "CommandLineOverflow" | InvalidKernelStartAddress => "InvalidKernelStartAddress" | MemoryOverflow => "MemoryOverflow"
  end.
Definition boot_variant (e : berror) : string :=
  match e with BLinux _ => "Linux" | BPvh _ => "Pvh" | BFdt _ => "Fdt" | MissingStartAddress => "MissingStartAddress"
  | BOverflow => "Overflow" | InvalidAddress => "InvalidAddress" end.
(** The item a call is made through. *)
Definition called_as (t : task) : path :=
  match t with
  | LoadElf _ _ _ => ["loader"; "Elf"] | LoadBz _ _ _ => ["loader"; "BzImage"] | LoadPe _ _ _ _ => ["loader"; "PE"]
  | LoadDtb _ _ => ["loader"; "load_dtb"] | LoadCmdline _ _ => ["loader"; "load_cmdline"]
  | WriteLinux _ => ["configurator"; "linux"; "LinuxBootConfigurator"] | WriteFdt _ => ["configurator"; "fdt"; "FdtBootConfigurator"]
  | WritePvh _ => ["configurator"; "pvh"; "PvhBootConfigurator"]
  end.
(** What a caller needs to take the answer apart. *)
Definition mentioned (x : report) : list path :=
  match x with
  | Loaded (Ok res) =>
      ["loader"; "KernelLoaderResult"; "kernel_load"] :: ["loader"; "KernelLoaderResult"; "kernel_end"] ::
      (match result_header res with Some _ => [["loader"; "KernelLoaderResult"; "setup_header"]; ["bootparam"; "setup_header"]] | None => [] end) ++
      (match pvh_boot_cap res with PvhEntryIgnored => [] | _ => [["loader"; "KernelLoaderResult"; "pvh_boot_cap"]; ["loader"; "PvhBootCapability"]] end)
  | Loaded (Err e) | Done (Err e) =>
      ["loader"; "Error"; loader_variant e] ::
      match e with LElf _ => [["loader"; "elf"; "Error"]] | LBz _ => [["loader"; "bzimage"; "Error"]] | LPe _ => [["loader"; "pe"; "Error"]] | _ => [] end
  | Written (Err e) =>
      ["configurator"; "Error"; boot_variant e] ::
      match e with BLinux _ => [["configurator"; "linux"; "Error"]] | BPvh _ => [["configurator"; "pvh"; "Error"]]
                 | BFdt _ => [["configurator"; "fdt"; "Error"]] | _ => [] end
  | _ => []
  end.

(** What a computation can end with. *)
Definition ends {A} (P : lerror -> Prop) (Q : A -> Prop) (x : L A) : Prop := forall r m r' m' o, x r m = (r', m', o) ->
  match o with Ok a => Q a | Err e => P e | Panic _ => True end.
Lemma ends_bind {A B} P (Q : B -> Prop) (x : L A) f : ends P (fun _ => True) x -> (forall a, ends P Q (f a)) -> ends P Q (lbind x f).
Proof.
  intros X F r m r' m' o E. unfold lbind in E. destruct (x r m) as [[r1 m1] [a|e|p]] eqn:Ex.
  - exact (F a _ _ _ _ _ E).
  - injection E as <- <- <-. exact (X _ _ _ _ _ Ex).
  - injection E as <- <- <-. exact I.
Qed.
Lemma ends_ret {A} P (Q : A -> Prop) a : Q a -> ends P Q (lret a).
Proof. intros H r m r' m' o E. injection E as <- <- <-. exact H. Qed.
Lemma ends_fail {A} (P : lerror -> Prop) (Q : A -> Prop) e : P e -> ends P Q (lfail e).
Proof. intros H r m r' m' o E. injection E as <- <- <-. exact H. Qed.
Lemma ends_pure {A} (P : lerror -> Prop) (x : outcome lerror A) : (forall e, x = Err e -> P e) -> ends P (fun _ => True) (lpure x).
Proof. intros H r m r' m' o E. injection E as <- <- <-. destruct x; [exact I|apply H; reflexivity|exact I]. Qed.
Lemma ends_io {A} (P : lerror -> Prop) (op : reader -> reader * option A) e : P e -> ends P (fun _ => True) (lio op e).
Proof. intros H r m r' m' o E. unfold lio in E. destruct (op r) as [r1 [a|]]; injection E as <- <- <-; [exact I|exact H]. Qed.
Lemma ends_copy (P : lerror -> Prop) be a n e : P e -> ends P (fun _ => True) (lcopy be a n e).
Proof.
  intros H r m r' m' o E. unfold lcopy in E. destruct (read_exact_volatile_from be r m a n) as [[r1 m1] [u|u|p]]; injection E as <- <- <-; [exact I|exact H|exact I].
Qed.
Definition elf_error (e : lerror) : Prop := (exists x, e = LElf x) \/ e = MemoryOverflow.
Lemma align_up_errors bld a n e : align_up bld a n = Err e -> elf_error e.
Proof.
  unfold align_up. destruct (negb (is_power_of_two n)); [intros E; injection E as <-; left; eexists; reflexivity|].
  unfold usub, uadd, obind. repeat match goal with |- context [if ?b then _ else _] => destruct b end; discriminate.
Qed.
Lemma uadd_errors bld a b (e : lerror) : uadd bld a b = Err e -> elf_error e.
Proof. unfold uadd. repeat match goal with |- context [if ?b then _ else _] => destruct b end; discriminate. Qed.
Lemma ok_or_errors {A} (x : option A) (e e' : lerror) : ok_or x e = Err e' -> e' = e.
Proof. destruct x; cbn; [discriminate|]. intros E. injection E as <-. reflexivity. Qed.
Ltac elf_err := left; eexists; reflexivity.
Lemma ends_note bld phdr : forall fuel rs nh, ends elf_error (fun _ => True) (note_loop bld fuel phdr rs nh).
Proof.
  induction fuel as [|fuel IH]; intros rs nh; cbn [note_loop]; [apply ends_pure; discriminate|].
  destruct (negb (rs <? phdr_get "p_filesz" phdr)%N); [apply ends_ret; exact I|].
  apply ends_bind; [apply ends_io; elf_err|]. intros h. apply ends_bind.
  - destruct (_ && _); [|apply ends_ret; exact I]. apply ends_bind; [apply ends_io; elf_err|]. intros b. apply ends_ret. exact I.
  - intros [|]; [apply ends_ret; exact I|]. apply ends_bind; [apply ends_pure; intros e E; exact (align_up_errors _ _ _ _ E)|]. intros a.
    apply ends_bind; [apply ends_pure; intros e E; exact (align_up_errors _ _ _ _ E)|]. intros d.
    destruct (_ || _); [apply ends_fail; elf_err|]. apply ends_bind; [apply ends_pure; intros e E; apply ok_or_errors in E; subst e; elf_err|].
    intros q. apply ends_bind; [apply ends_pure; intros e E; exact (uadd_errors _ _ _ _ E)|]. intros tg.
    apply ends_bind; [apply ends_io; elf_err|]. intros _. apply IH.
Qed.
Lemma ends_parse bld phdr : ends elf_error (fun _ => True) (parse_elf_note bld phdr).
Proof.
  unfold parse_elf_note. apply ends_bind; [apply ends_io; elf_err|]. intros _. apply ends_bind.
  - intros r m. exact (ends_note bld phdr _ _ _ r m).
  - intros res. cbn zeta. destruct (phdr_get "p_filesz" phdr <=? fst res)%N; [apply ends_ret; exact I|].
    apply ends_bind; [apply ends_pure; intros e E; exact (align_up_errors _ _ _ _ E)|]. intros a. apply ends_bind; [apply ends_io; elf_err|]. intros _.
    destruct (nhdr_get "n_descsz" (snd res) <? 4)%N; [apply ends_fail; elf_err|]. apply ends_bind; [apply ends_io; elf_err|]. intros b. apply ends_ret. exact I.
Qed.
Lemma ends_elf bld be off h : ends elf_error (fun res => result_header res = None) (elf_load bld be off h).
Proof.
  assert (RP : forall n, ends elf_error (fun _ => True) (read_phdrs n)).
  { induction n as [|n IH]; cbn [read_phdrs]; [apply ends_ret; exact I|]. apply ends_bind; [apply ends_io; elf_err|]. intros p.
    apply ends_bind; [exact IH|]. intros ps. apply ends_ret. exact I. }
  assert (LP : forall ps k cap, ends elf_error (fun _ => True) (load_phdrs bld be off ps k cap)).
  { induction ps as [|p ps IH]; intros k cap; cbn [load_phdrs]; [apply ends_ret; exact I|]. destruct (_ || _).
    - apply ends_bind; [|intros c; apply IH]. destruct (phdr_get "p_type" p =? PT_NOTE)%N; [|apply ends_ret; exact I].
      destruct off; [apply ends_ret; exact I|apply ends_parse].
    - apply ends_bind; [apply ends_io; elf_err|]. intros _. apply ends_bind.
      { apply ends_pure. destruct off; [|discriminate]. intros e E. apply ok_or_errors in E. subst e. elf_err. }
      intros a. apply ends_bind; [apply ends_copy; elf_err|]. intros _. apply ends_bind; [|intros e; apply IH].
      apply ends_pure. intros e E. apply ok_or_errors in E. right. exact E. }
  unfold elf_load. apply ends_bind; [apply ends_io; elf_err|]. intros _. apply ends_bind; [apply ends_io; elf_err|]. intros eh.
  apply ends_bind.
  { apply ends_pure. intros e. unfold validate_header. repeat match goal with |- context [if ?b then _ else _] => destruct b end;
      intros E; try discriminate E; injection E as <-; elf_err. }
  intros _. apply ends_bind.
  { destruct h as [a|]; [|apply ends_ret; exact I]. destruct (_ <? a)%N; [apply ends_fail; elf_err|apply ends_ret; exact I]. }
  intros _. apply ends_bind.
  { apply ends_pure. destruct off; [|discriminate]. intros e E. apply ok_or_errors in E. subst e. elf_err. }
  intros ld. apply ends_bind; [apply ends_io; elf_err|]. intros _. apply ends_bind; [apply RP|]. intros ps. apply ends_bind; [apply LP|]. intros [k c].
  apply ends_ret. reflexivity.
Qed.
Definition bz_error (e : lerror) : Prop := (exists x, e = LBz x) \/ e = InvalidKernelStartAddress \/ e = MemoryOverflow.
Lemma ends_bz be off h : ends bz_error (fun res => pvh_boot_cap res = PvhEntryIgnored) (bz_load be off h).
Proof.
  unfold bz_load. apply ends_bind; [apply ends_io; elf_err|]. intros n. apply ends_bind; [apply ends_io; elf_err|]. intros _.
  apply ends_bind; [apply ends_io; elf_err|]. intros b. destruct (negb _); [apply ends_fail; elf_err|]. destruct (_ || _); [apply ends_fail; elf_err|].
  cbn zeta. apply ends_bind; [apply ends_pure; intros e E; apply ok_or_errors in E; subst e; elf_err|]. intros s.
  apply ends_bind; [apply ends_pure; intros e E; apply ok_or_errors in E; subst e; elf_err|]. intros k.
  destruct (match h with Some x => _ | None => false end); [apply ends_fail; right; left; reflexivity|].
  apply ends_bind; [apply ends_io; elf_err|]. intros _. apply ends_bind; [apply ends_copy; elf_err|]. intros _.
  apply ends_bind; [apply ends_pure; intros e E; apply ok_or_errors in E; right; right; exact E|]. intros e. apply ends_ret. reflexivity.
Qed.
Definition pe_error (e : lerror) : Prop := (exists x, e = LPe x) \/ e = MemoryOverflow.
Lemma ends_pe a be off h : ends pe_error (fun res => result_header res = None /\ pvh_boot_cap res = PvhEntryIgnored) (pe_load a be off h).
Proof.
  unfold pe_load. apply ends_bind; [apply ends_io; elf_err|]. intros n. apply ends_bind; [apply ends_io; elf_err|]. intros _.
  apply ends_bind; [apply ends_io; elf_err|]. intros b. destruct (negb _); [apply ends_fail; elf_err|].
  destruct (match off with Some x => _ | None => false end); [apply ends_fail; elf_err|].
  apply ends_bind; [apply ends_pure; intros e E; apply ok_or_errors in E; subst e; elf_err|]. intros s.
  apply ends_bind; [apply ends_io; elf_err|]. intros _. apply ends_bind; [apply ends_copy; elf_err|]. intros _.
  apply ends_bind; [apply ends_pure; intros e E; apply ok_or_errors in E; right; exact E|]. intros e. apply ends_ret. split; reflexivity.
Qed.
Lemma ends_dtb be addr : ends pe_error (fun _ => True) (load_dtb be addr).
Proof.
  unfold load_dtb. apply ends_bind; [apply ends_io; elf_err|]. intros n. destruct (_ <? n)%N; [apply ends_fail; elf_err|].
  apply ends_bind; [apply ends_io; elf_err|]. intros _. apply ends_copy. elf_err.
Qed.
Lemma cmdline_errors bld be m addr c m' e : load_cmdline bld be m addr c = (m', Err e) -> e = InvalidCommandLine \/ e = CommandLineCopy \/ e = CommandLineOverflow.
Proof.
  unfold load_cmdline. destruct (as_cstring c) as [s|x|p]; [|intros E; injection E as <- <-; tauto|discriminate].
  cbn zeta. unfold usub. destruct (1 <=? lenN (bytes_with_nul s))%N.
  - destruct (checked_add _ _) as [q|]; [|intros E; injection E as <- <-; tauto]. destruct (last_addr m <? q)%N; [intros E; injection E as <- <-; tauto|].
    destruct (write_slice _ _ _ _) as [m1 [u|u|p]]; intros E; try discriminate E; injection E as <- <-; tauto.
  - destruct bld; [discriminate|]. destruct (checked_add _ _) as [q|]; [|intros E; injection E as <- <-; tauto]. destruct (last_addr m <? q)%N; [intros E; injection E as <- <-; tauto|].
    destruct (write_slice _ _ _ _) as [m1 [u|u|p]]; intros E; try discriminate E; injection E as <- <-; tauto.
Qed.
Lemma block_errors be m a bs e1 e2 m' e : check_and_write be m a bs e1 e2 = (m', Err e) -> e = e1 \/ e = e2.
Proof.
  unfold check_and_write. destruct (checked_offset m a (lenN bs)); [|intros E; injection E as <- <-; tauto].
  destruct (write_slice _ _ _ _) as [m1 [u|u|p]]; intros E; try discriminate E; injection E as <- <-; tauto.
Qed.
Lemma pvh_errors be p m m' e : pvh_write_bootparams be p m = (m', Err e) -> exists x, e = BPvh x.
Proof.
  unfold pvh_write_bootparams. destruct (sections p) as [v|]; [|intros E; injection E as <- <-; eexists; reflexivity].
  destruct (sections_start p) as [a|]; [|intros E; injection E as <- <-; eexists; reflexivity].
  destruct (check_and_write be m a v _ _) as [m1 [u|x|q]] eqn:E1; [|intros E; injection E as <- <-; destruct (block_errors _ _ _ _ _ _ _ _ E1) as [->| ->]; eexists; reflexivity|discriminate].
  destruct (check_and_write be m1 _ _ _ _) as [m2 [u2|x|q]] eqn:E2; [|intros E; injection E as <- <-; destruct (block_errors _ _ _ _ _ _ _ _ E2) as [->| ->]; eexists; reflexivity|discriminate].
  destruct (modules p) as [w|]; [|discriminate]. destruct (modules_start p) as [b|]; [|intros E; injection E as <- <-; eexists; reflexivity].
  destruct (write_slice _ _ _ _) as [m3 [u3|x|q]]; intros E; try discriminate E; injection E as <- <-; eexists; reflexivity.
Qed.

(** Whatever a call answers that exists in a build, the caller finds there what it takes to look at the answer: the variant of the error,
    the type inside it, the fields of the result. *)
Theorem C121_answers : forall arch requested bld be t m m' x p, let c := built_for arch requested in
  perform bld be t m = (m', x) -> outside c (called_as t) <> [] -> In p (mentioned x) -> exists q, outside c p = [q].
Proof.
  intros arch req bld be t m m' x p c E M Hp. destruct (pick arch req) as (a & fs & Ha & Hfs & A & _). pose proof (in_cases a fs Ha Hfs) as Hd. subst c.
  rewrite (agree_outside _ _ _ A) in M. rewrite (agree_outside _ _ _ A).
  assert (T : forall from l, forallb (fun d => implb (is_there (outside d from)) (forallb (fun p => means_one (outside d p)) l)) cases = true ->
    called_as t = from -> In p l -> exists q, outside (mkConfig a (named fs)) p = [q]).
  { intros from l X <- Hl. rewrite forallb_forall in X. specialize (X _ Hd). destruct (outside _ (called_as t)); [contradiction|].
    cbn [is_there implb] in X. rewrite forallb_forall in X. specialize (X _ Hl). destruct (outside _ p) as [|q [|]]; try discriminate X. exists q. reflexivity. }
  destruct t as [off h im|off h im|ar off h im|addr im|addr cl|b|b|b]; cbn [perform] in E; cbn [called_as] in T.
  - destruct (elf_load bld be off h im m) as [[r1 m1] o] eqn:L. injection E as <- <-. pose proof (ends_elf bld be off h _ _ _ _ _ L) as Z.
    destruct o as [res|e|]; cbn [mentioned] in Hp; [| |contradiction].
    + rewrite Z in Hp. apply (T ["loader"; "Elf"] [["loader"; "KernelLoaderResult"; "kernel_load"]; ["loader"; "KernelLoaderResult"; "kernel_end"];
        ["loader"; "KernelLoaderResult"; "pvh_boot_cap"]; ["loader"; "PvhBootCapability"]]); [vm_compute; reflexivity|reflexivity|].
      destruct (pvh_boot_cap res); cbn [app In] in *; tauto.
    + destruct Z as [[z ->]| ->]; cbn [loader_variant] in Hp.
      * apply (T ["loader"; "Elf"] [["loader"; "Error"; "Elf"]; ["loader"; "elf"; "Error"]]); [vm_compute; reflexivity|reflexivity|exact Hp].
      * apply (T ["loader"; "Elf"] [["loader"; "Error"; "MemoryOverflow"]]); [vm_compute; reflexivity|reflexivity|exact Hp].
  - destruct (bz_load be off h im m) as [[r1 m1] o] eqn:L. injection E as <- <-. pose proof (ends_bz be off h _ _ _ _ _ L) as Z.
    destruct o as [res|e|]; cbn [mentioned] in Hp; [| |contradiction].
    + rewrite Z in Hp. apply (T ["loader"; "BzImage"] [["loader"; "KernelLoaderResult"; "kernel_load"]; ["loader"; "KernelLoaderResult"; "kernel_end"];
        ["loader"; "KernelLoaderResult"; "setup_header"]; ["bootparam"; "setup_header"]]); [vm_compute; reflexivity|reflexivity|].
      destruct (result_header res); cbn [app In] in *; tauto.
    + destruct Z as [[z ->]|[-> | ->]]; cbn [loader_variant] in Hp.
      * apply (T ["loader"; "BzImage"] [["loader"; "Error"; "Bzimage"]; ["loader"; "bzimage"; "Error"]]); [vm_compute; reflexivity|reflexivity|exact Hp].
      * apply (T ["loader"; "BzImage"] [["loader"; "Error"; "InvalidKernelStartAddress"]]); [vm_compute; reflexivity|reflexivity|exact Hp].
      * apply (T ["loader"; "BzImage"] [["loader"; "Error"; "MemoryOverflow"]]); [vm_compute; reflexivity|reflexivity|exact Hp].
  - destruct (pe_load ar be off h im m) as [[r1 m1] o] eqn:L. injection E as <- <-. pose proof (ends_pe ar be off h _ _ _ _ _ L) as Z.
    destruct o as [res|e|]; cbn [mentioned] in Hp; [| |contradiction].
    + destruct Z as [Z1 Z2]. rewrite Z1, Z2 in Hp.
      apply (T ["loader"; "PE"] [["loader"; "KernelLoaderResult"; "kernel_load"]; ["loader"; "KernelLoaderResult"; "kernel_end"]]); [vm_compute; reflexivity|reflexivity|exact Hp].
    + destruct Z as [[z ->]| ->]; cbn [loader_variant] in Hp.
      * apply (T ["loader"; "PE"] [["loader"; "Error"; "Pe"]; ["loader"; "pe"; "Error"]]); [vm_compute; reflexivity|reflexivity|exact Hp].
      * apply (T ["loader"; "PE"] [["loader"; "Error"; "MemoryOverflow"]]); [vm_compute; reflexivity|reflexivity|exact Hp].
  - destruct (load_dtb be addr im m) as [[r1 m1] o] eqn:L. injection E as <- <-. pose proof (ends_dtb be addr _ _ _ _ _ L) as Z.
    destruct o as [res|e|]; cbn [mentioned] in Hp; [contradiction| |contradiction].
    destruct Z as [[z ->]| ->]; cbn [loader_variant] in Hp.
    + apply (T ["loader"; "load_dtb"] [["loader"; "Error"; "Pe"]; ["loader"; "pe"; "Error"]]); [vm_compute; reflexivity|reflexivity|exact Hp].
    + apply (T ["loader"; "load_dtb"] [["loader"; "Error"; "MemoryOverflow"]]); [vm_compute; reflexivity|reflexivity|exact Hp].
  - destruct (load_cmdline bld be m addr cl) as [m1 o] eqn:L. injection E as <- <-. destruct o as [u|e|]; cbn [mentioned] in Hp; [contradiction| |contradiction].
    destruct (cmdline_errors _ _ _ _ _ _ _ L) as [-> |[-> | ->]]; cbn [loader_variant] in Hp.
    + apply (T ["loader"; "load_cmdline"] [["loader"; "Error"; "InvalidCommandLine"]]); [vm_compute; reflexivity|reflexivity|exact Hp].
    + apply (T ["loader"; "load_cmdline"] [["loader"; "Error"; "CommandLineCopy"]]); [vm_compute; reflexivity|reflexivity|exact Hp].
    + apply (T ["loader"; "load_cmdline"] [["loader"; "Error"; "CommandLineOverflow"]]); [vm_compute; reflexivity|reflexivity|exact Hp].
  - destruct (linux_write_bootparams be b m) as [m1 o] eqn:L. injection E as <- <-. destruct o as [u|e|]; cbn [mentioned] in Hp; [contradiction| |contradiction].
    apply (T ["configurator"; "linux"; "LinuxBootConfigurator"] [["configurator"; "Error"; "Linux"]; ["configurator"; "linux"; "Error"]]); [vm_compute; reflexivity|reflexivity|].
    destruct (block_errors _ _ _ _ _ _ _ _ L) as [-> | ->]; exact Hp.
  - destruct (fdt_write_bootparams be b m) as [m1 o] eqn:L. injection E as <- <-. destruct o as [u|e|]; cbn [mentioned] in Hp; [contradiction| |contradiction].
    apply (T ["configurator"; "fdt"; "FdtBootConfigurator"] [["configurator"; "Error"; "Fdt"]; ["configurator"; "fdt"; "Error"]]); [vm_compute; reflexivity|reflexivity|].
    destruct (block_errors _ _ _ _ _ _ _ _ L) as [-> | ->]; exact Hp.
  - destruct (pvh_write_bootparams be b m) as [m1 o] eqn:L. injection E as <- <-. destruct o as [u|e|]; cbn [mentioned] in Hp; [contradiction| |contradiction].
    apply (T ["configurator"; "pvh"; "PvhBootConfigurator"] [["configurator"; "Error"; "Pvh"]; ["configurator"; "pvh"; "Error"]]); [vm_compute; reflexivity|reflexivity|].
    destruct (pvh_errors _ _ _ _ _ L) as [z ->]. exact Hp.
Qed.

(** ** Cases *)
(** The crate as it comes on a PC and on an arm board; a build for neither; and one where the features of Cargo.toml matter. *)
Example C121_applies :
  In (["loader"; "Elf"], pc, ["elf"]) offered /\ available "x86_64" ["default"] pc ["elf"] /\
  outside (built_for "x86_64" ["default"]) ["loader"; "Elf"] = [["loader"; "elf"; "Elf"]] /\
  outside (built_for "x86_64" ["default"]) ["loader"; "BzImage"] = [] /\
  outside (built_for "aarch64" ["default"]) ["loader"; "PE"] = [["loader"; "pe"; "PE"]] /\
  outside (built_for "s390x" ["default"; "bzimage"]) ["loader"; "Error"; "Elf"] = [] /\
  outside (built_for "s390x" []) ["configurator"] = [] /\
  outside (built_for "x86_64" []) ["bootparam"; "setup_header"] = [["loader_gen"; "x86_64"; "bootparam"; "setup_header"]] /\
  (exists r, In r code /\ compiled (built_for "x86_64" ["bzimage"]) r /\ In ["loader_gen"; "start_info"; "hvm_start_info"] (needs r)) /\
  (* without Cargo.toml's "bzimage needs elf" the PVH configurator would name what is not there *)
  let c := mkConfig "x86_64" (String.eqb "bzimage") in
  is_there (inside c ["configurator"; "pvh"]) = true /\ inside c ["loader_gen"; "start_info"; "hvm_start_info"] = [].
Proof.
  split; [cbn; tauto|]. split.
  { split; [right; cbn; tauto|]. intros f [<-|[]]. apply (needed_by _ "pe" ["elf"]); [|cbn; tauto|cbn; tauto].
    apply (needed_by _ "default" ["pe"]); [apply asked_for; cbn; tauto|cbn; tauto|cbn; tauto]. }
  do 6 (split; [vm_compute; reflexivity|]). split.
  { destruct (find (fun r => same_path (in_module r) ["configurator"; "x86_64"; "pvh"]) code) as [r|] eqn:F; [|discriminate F].
    exists r. split; [exact (proj1 (find_some _ _ F))|]. vm_compute in F. injection F as <-. split.
    - split; [vm_compute; discriminate|vm_compute; reflexivity].
    - vm_compute; tauto. }
  split; vm_compute; reflexivity.
Qed.
