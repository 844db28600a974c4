(** * Host_proofs2: the command line builder and boot parameters on any host. *)
From Verif Require Import Base Base_proofs Io Mem SpecMem Mem_proofs Text Cmdline SpecCmdline Text_proofs Cmdline_proofs Cmdline_proofs2 Cmdline_proofs3
  SpecHistory Props_History BootParams SpecBoot Boot_proofs Props_Boot SpecParams Props_Params Layout Loader Host SpecHost.

Section Width.
Context (usz : N) (Husz : pointer_width usz).

Lemma width : (usz = 4294967296 /\ usz / 2 = 2147483648) \/ (usz = two64 /\ usz / 2 = 9223372036854775808).
Proof. destruct Husz as [-> | ->]; [left|right]; split; reflexivity. Qed.

(** ** the command line builder *)
Lemma host_repr_ok bld c : Inv c -> capacity c < usz ->
  host_repr_size usz bld c = Ok (str_len (boot_args c) + match init_args c with [] => 0 | _ => 4 + str_len (init_args c) end + 1).
Proof.
  intros [Hf _] Hc. apply fits_len in Hf. unfold host_repr_size, usize_plus.
  destruct (init_args c) as [|x r].
  - rewrite (proj2 (N.ltb_lt _ _)) by lia. cbn [obind]. f_equal. lia.
  - rewrite sep_len. rewrite (proj2 (N.ltb_lt (str_len (boot_args c) + 1) usz)) by lia. cbn [obind].
    rewrite (proj2 (N.ltb_lt _ usz)) by lia. cbn [obind]. rewrite (proj2 (N.ltb_lt _ usz)) by lia. f_equal. lia.
Qed.

Lemma host_sum c a b (k : N -> cres) : capacity c < usz ->
  (forall x, capacity c < x -> k x = (c, Err TooLarge)) ->
  ctry c (ok_or (usize_add usz a b) TooLarge) k = ctry c (ok_or (checked_add a b) TooLarge) k.
Proof.
  intros Hc Hk. unfold usize_add, checked_add. pose proof width.
  destruct (N.ltb_spec (a + b) usz); destruct (N.ltb_spec (a + b) two64); cbn [ok_or ctry]; try reflexivity.
  - exfalso. unfold two64 in *. lia.
  - symmetry. apply Hk. lia.
Qed.
Lemma ctry_ext c {A} (x : outcome cerror A) k k' : (forall a, k a = k' a) -> ctry c x k = ctry c x k'.
Proof. intros H. destruct x; cbn; auto. Qed.

Lemma host_insert_str_same bld c s : Inv c -> capacity c < usz -> host_insert_str usz bld c s = insert_str bld c s.
Proof.
  intros HI Hc. unfold host_insert_str, insert_str. cbv zeta. rewrite host_repr_ok, repr_size_ok by assumption.
  set (size0 := _ + _ + 1). set (t := trim s).
  apply ctry_ext. intros []. cbn [ctry].
  assert (Hbig : forall x, capacity c < x ->
    ctry c (ok_or (checked_add x (str_len t)) TooLarge) (fun size2 =>
      if capacity c <? size2 then (c, Err TooLarge)
      else let c1 := if is_empty (boot_args c) then c else push_boot c [32] in (push_boot c1 t, Ok tt)) = (c, Err TooLarge)).
  { intros x Hx. unfold checked_add. destruct (x + str_len t <? two64); cbn [ok_or ctry]; [|reflexivity].
    rewrite (proj2 (N.ltb_lt _ _)) by lia. reflexivity. }
  assert (Hin : forall x,
    ctry c (ok_or (usize_add usz x (str_len t)) TooLarge) (fun size2 =>
      if capacity c <? size2 then (c, Err TooLarge)
      else let c1 := if is_empty (boot_args c) then c else push_boot c [32] in (push_boot c1 t, Ok tt)) =
    ctry c (ok_or (checked_add x (str_len t)) TooLarge) (fun size2 =>
      if capacity c <? size2 then (c, Err TooLarge)
      else let c1 := if is_empty (boot_args c) then c else push_boot c [32] in (push_boot c1 t, Ok tt))).
  { intros x. apply host_sum; [exact Hc|]. intros y Hy. rewrite (proj2 (N.ltb_lt _ _)) by assumption. reflexivity. }
  destruct (is_empty (boot_args c)); cbn [ctry]; [apply Hin|].
  rewrite host_sum; [|exact Hc|intros x Hx; rewrite Hin; apply Hbig; exact Hx].
  apply ctry_ext. exact Hin.
Qed.

Lemma host_insert_init_same bld c s : Inv c -> capacity c < usz -> host_insert_init_args usz bld c s = insert_init_args bld c s.
Proof.
  intros HI Hc. unfold host_insert_init_args, insert_init_args. cbv zeta. rewrite host_repr_ok, repr_size_ok by assumption.
  set (size0 := _ + _ + 1). set (t := trim s).
  apply ctry_ext. intros []. cbn [ctry].
  assert (Hbig : forall x, capacity c < x ->
    ctry c (ok_or (checked_add x (str_len t)) TooLarge) (fun size2 =>
      if capacity c <? size2 then (c, Err TooLarge)
      else let c1 := if is_empty (init_args c) then c else push_init c [32] in (push_init c1 t, Ok tt)) = (c, Err TooLarge)).
  { intros x Hx. unfold checked_add. destruct (x + str_len t <? two64); cbn [ok_or ctry]; [|reflexivity].
    rewrite (proj2 (N.ltb_lt _ _)) by lia. reflexivity. }
  assert (Hin : forall x,
    ctry c (ok_or (usize_add usz x (str_len t)) TooLarge) (fun size2 =>
      if capacity c <? size2 then (c, Err TooLarge)
      else let c1 := if is_empty (init_args c) then c else push_init c [32] in (push_init c1 t, Ok tt)) =
    ctry c (ok_or (checked_add x (str_len t)) TooLarge) (fun size2 =>
      if capacity c <? size2 then (c, Err TooLarge)
      else let c1 := if is_empty (init_args c) then c else push_init c [32] in (push_init c1 t, Ok tt))).
  { intros x. apply host_sum; [exact Hc|]. intros y Hy. rewrite (proj2 (N.ltb_lt _ _)) by assumption. reflexivity. }
  rewrite host_sum; [|exact Hc|intros x Hx; rewrite Hin; apply Hbig; exact Hx].
  apply ctry_ext. exact Hin.
Qed.

Lemma host_run_op_same bld c o : Inv c -> capacity c < usz -> host_run_op usz bld c o = run_op bld c o.
Proof.
  intros HI Hc. destruct o; cbn [host_run_op run_op].
  - unfold host_insert, insert. apply ctry_ext. intros _. apply ctry_ext. intros _. now apply host_insert_str_same.
  - unfold host_insert_multiple, insert_multiple. apply ctry_ext. intros _. destruct vs as [|v0 vs]; [reflexivity|].
    apply ctry_ext. intros vl. now apply host_insert_str_same.
  - now apply host_insert_str_same.
  - now apply host_insert_init_same.
  - unfold host_add_virtio_mmio_device, add_virtio_mmio_device. destruct (size =? 0); [reflexivity|]. cbv zeta. now apply host_insert_str_same.
Qed.

Lemma host_ctor_typed_64 k : host_ctor_typed usz k -> ctor_typed k.
Proof.
  pose proof width. destruct k; cbn [host_ctor_typed ctor_typed]; change (2 ^ 64) with two64; change (2 ^ 63) with 9223372036854775808;
    unfold two64 in *; lia.
Qed.
Lemma host_run_ctor_same k : host_ctor_typed usz k -> host_run_ctor usz k = run_ctor k.
Proof.
  destruct k as [cap|raw cap]; cbn [host_ctor_typed host_run_ctor run_ctor]; [reflexivity|]. intros [Hc Hl].
  unfold host_try_from, cmdline_try_from. destruct (cap =? 0); [reflexivity|].
  destruct (split_cmdline raw) as [b0 i0] eqn:E. pose proof (split_len _ _ _ E) as Hs. rewrite <- str_len_utf8 in Hl.
  pose proof (trim_length b0). pose proof (trim_length i0). pose proof width as Hw. cbv zeta.
  rewrite (checked_add_lt (str_len (trim b0)) 1) by (unfold two64 in *; lia).
  unfold usize_add. rewrite (proj2 (N.ltb_lt (str_len (trim b0) + 1) usz)) by (unfold two64 in *; lia). cbn [ok_or obind].
  destruct (trim i0) as [|x r] eqn:Et; [reflexivity|]. rewrite sep_len.
  rewrite (checked_add_lt (str_len (trim b0) + 1) 4) by (unfold two64 in *; lia).
  rewrite (proj2 (N.ltb_lt (str_len (trim b0) + 1 + 4) usz)) by (unfold two64 in *; lia). cbn [ok_or obind].
  rewrite checked_add_lt by (unfold two64 in *; lia).
  rewrite (proj2 (N.ltb_lt _ usz)) by (unfold two64 in *; lia). reflexivity.
Qed.

(** ** boot parameters *)
Definition host_add (w : which) := match w with Sections => host_add_section usz | Modules => host_add_module usz end.

Lemma host_grow v n : lenN v <= n -> n < usz / 2 -> host_vec_resize usz v n = Ok (v ++ zeros (n - lenN v)).
Proof.
  intros H1 H2. unfold host_vec_resize. destruct (N.leb_spec n (lenN v)) as [H|H].
  - replace n with (lenN v) by lia. rewrite slice_full, N.sub_diag. change (zeros 0) with (@nil byte). now rewrite app_nil_r.
  - rewrite (proj2 (N.ltb_ge _ _)) by lia. reflexivity.
Qed.

Lemma host_add_cases bld e addr v st v' st' o :
  lenN v < usz / 2 -> lenN e < usz / 2 -> (forall s, st = Some s -> s < 2 ^ 64) -> (forall a, addr = Some a -> a < 2 ^ 64) ->
  host_add_to_list usz bld e addr v st = (v', st', o) ->
  exists w s, host_add_says usz v st e addr (reply_of o) w s /\
    st' = s /\ ((forall q, o <> Panic q) -> v' = w).
Proof.
  intros Hv He Hs Ha H. unfold host_add_to_list in H. pose proof width as Hw.
  change (2 ^ 64) with two64 in *.
  replace (match st with None => addr | Some _ => st end) with (start_with st addr) in H by (destruct st; reflexivity).
  destruct (start_with st addr) as [s|] eqn:Es.
  2:{ inversion H; subst. exists v', None. cbn [reply_of]. split; [|auto]. destruct st; cbn in Es; [discriminate|]. now apply hadd_nowhere. }
  assert (Hsb : s < two64) by (unfold start_with in Es; destruct st; inversion Es; subst; auto).
  unfold checked_add in H. destruct (N.ltb_spec (s + lenN v) two64) as [H1|H1].
  2:{ inversion H; subst. exists v', (Some s). cbn [reply_of]. split; [|auto]. now apply hadd_overflow. }
  unfold checked_sub in H.
  set (a := match addr with Some a => a | None => s + lenN v end) in *.
  destruct (N.leb_spec s a) as [H2|H2].
  2:{ inversion H; subst. exists v', (Some s). cbn [reply_of]. split; [|auto].
      destruct addr as [a0|]; [|unfold a in H2; lia]. now apply hadd_before with a0. }
  set (off := as_usize usz (a - s)) in *.
  assert (Hoff : off < usz) by (apply N.mod_lt; unfold two64 in *; lia).
  (* what the two outcomes mean *)
  assert (Habort : forall vv q, usz / 2 <= off + lenN e -> (vv, Some s, Panic q) = (v', st', o) ->
    exists w s0, host_add_says usz v st e addr (reply_of o) w s0 /\ st' = s0 /\ ((forall q, o <> Panic q) -> v' = w)).
  { intros vv q Hbig E. inversion E; subst. exists v, (Some s). cbn [reply_of]. split; [|split; [reflexivity|intros X; now destruct (X q)]].
    destruct addr as [a0|]; [now apply hadd_huge_at with a0|]. apply hadd_huge_end; try assumption; [reflexivity|].
    unfold off, a in Hbig. replace (s + lenN v - s) with (lenN v) in Hbig by lia.
    unfold as_usize in Hbig. rewrite N.mod_small in Hbig by (unfold two64 in *; lia). exact Hbig. }
  unfold usize_plus in H. destruct (N.ltb_spec (off + lenN e) usz) as [H3|H3].
  - destruct (N.lt_ge_cases (off + lenN e) (usz / 2)) as [H4|H4].
    + rewrite host_grow in H by lia.
      destruct (splice_placed v off e) as (v1 & Ev & Hpl); [unfold isize_max, two64 in *; lia|]. rewrite Ev in H.
      inversion H; subst v' st' o. exists v1, (Some s). cbn [reply_of]. split; [|auto].
      destruct addr as [a0|]; [now apply hadd_at|]. unfold off, a, as_usize in *. replace (s + lenN v - s) with (lenN v) in * by lia.
      rewrite N.mod_small in * by (unfold two64 in *; lia). apply hadd_end; try assumption; [reflexivity|]. now apply placed_end.
    + unfold host_vec_resize in H. rewrite (proj2 (N.leb_gt _ _)) in H by lia. rewrite (proj2 (N.ltb_lt _ _)) in H by lia.
      eapply Habort; [exact H4|exact H].
  - assert (H4 : usz / 2 <= off + lenN e) by (unfold two64 in *; lia). destruct bld; [eapply Habort; [exact H4|exact H]|].
    assert (Em : (off + lenN e) mod usz = off + lenN e - usz).
    { symmetry. apply N.mod_unique with 1; (unfold two64 in *; lia). }
    rewrite Em in H. rewrite host_grow in H by lia.
    unfold vec_splice in H. rewrite (proj2 (N.ltb_lt _ _)) in H by (unfold two64 in *; lia). cbn [orb] in H.
    eapply Habort; [exact H4|exact H].
Qed.
End Width.
