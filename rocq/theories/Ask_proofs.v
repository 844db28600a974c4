(** Lemmas about conversations with any source and any guest memory. *)
From Verif Require Import Base Base_proofs Io Mem SpecMem Mem_proofs Layout SpecFile File_proofs Text Cmdline Loader Elf SpecElf
  Align_proofs Elf_proofs Elf_proofs2 BzImage SpecBz Bz_proofs Pe SpecPe Pe_proofs Source SpecTalk Talk_proofs BootParams Ask SpecAsk.
Local Open Scope ask_scope.

(** A conversation leads a program to an outcome. *)
Fixpoint path {E A} (p : prog E A) (l : list act) (o : outcome E A) : Prop :=
  match p with
  | Done o' => l = [] /\ o = o'
  | AskEnd k => match l with Img (SoughtEnd g) :: r => path (k g) r o | _ => False end
  | AskTo x k => match l with Img (SoughtTo y g) :: r => x = y /\ path (k g) r o | _ => False end
  | AskBy x k => match l with Img (SoughtBy y g) :: r => x = y /\ path (k g) r o | _ => False end
  | AskAll x k => match l with Img (ReadAll y g) :: r => x = y /\ path (k g) r o | _ => False end
  | AskSome x k => match l with Img (ReadSome y g) :: r => x = y /\ path (k g) r o | _ => False end
  | AskPlace a n k => match l with Placed b m g :: r => a = b /\ n = m /\ path (k g) r o | _ => False end
  | AskFits a n k => match l with Fits b m g :: r => a = b /\ n = m /\ path (k g) r o | _ => False end
  | AskWrite bs a k => match l with Wrote bs' a' g :: r => bs = bs' /\ a = a' /\ path (k g) r o | _ => False end
  | AskLast k => match l with Last g :: r => path (k g) r o | _ => False end
  end.

Lemma exec_path {W E A} (wd : world W) (p : prog E A) : forall w w' o,
  exec wd p w = (w', o) <-> exists l, conversation wd w l w' /\ path p l o.
Proof.
  assert (Hc : forall w x w1 l w', happens wd w x w1 -> conversation wd w1 l w' -> conversation wd w (x :: l) w').
  { intros. now apply cv_cons with (w1 := w1). }
  induction p as [o0|k IH|x k IH|x k IH|x k IH|x k IH|a n k IH|a n k IH|bs a k IH|k IH]; intros w w' o; cbn [exec path].
  { split.
    - intros H. injection H as <- <-. exists []. split; [apply cv_nil|auto].
    - intros (l & C & -> & ->). inversion C. reflexivity. }
  all: match goal with |- context [let (_, _) := ?f in _] => destruct f as [w1 g] eqn:Ew end; rewrite IH; split.
  all: try (intros (l & C & P);
    first [ solve [exists (Img (SoughtEnd g) :: l); split; [apply Hc with (w1 := w1); [exact Ew|exact C]|auto]]
          | solve [exists (Img (SoughtTo x g) :: l); split; [apply Hc with (w1 := w1); [exact Ew|exact C]|auto]]
          | solve [exists (Img (SoughtBy x g) :: l); split; [apply Hc with (w1 := w1); [exact Ew|exact C]|auto]]
          | solve [exists (Img (ReadAll x g) :: l); split; [apply Hc with (w1 := w1); [exact Ew|exact C]|auto]]
          | solve [exists (Img (ReadSome x g) :: l); split; [apply Hc with (w1 := w1); [exact Ew|exact C]|auto]]
          | solve [exists (Placed a n g :: l); split; [apply Hc with (w1 := w1); [exact Ew|exact C]|auto]]
          | solve [exists (Fits a n g :: l); split; [apply Hc with (w1 := w1); [exact Ew|exact C]|auto]]
          | solve [exists (Wrote bs a g :: l); split; [apply Hc with (w1 := w1); [exact Ew|exact C]|auto]]
          | solve [exists (Last g :: l); split; [apply Hc with (w1 := w1); [exact Ew|exact C]|auto]] ]).
  all: intros ([|y l] & C & P); [contradiction|]; destruct y as [[g'|y g'|y g'|y g'|y g'|y g']|b m g'|b m g'|bs' b g'|g']; try contradiction;
    inversion C as [|w0 x0 w2 l0 w3 Hh Hr]; subst; cbn [happens] in Hh.
  - rewrite Ew in Hh. injection Hh as <- <-. exists l. auto.
  - destruct P as (<- & P). rewrite Ew in Hh. injection Hh as <- <-. exists l. auto.
  - destruct P as (<- & P). rewrite Ew in Hh. injection Hh as <- <-. exists l. auto.
  - destruct P as (<- & P). rewrite Ew in Hh. injection Hh as <- <-. exists l. auto.
  - destruct P as (<- & P). rewrite Ew in Hh. injection Hh as <- <-. exists l. auto.
  - destruct P as (<- & <- & P). rewrite Ew in Hh. injection Hh as <- <-. exists l. auto.
  - destruct P as (<- & <- & P). rewrite Ew in Hh. injection Hh as <- <-. exists l. auto.
  - destruct P as (<- & <- & P). rewrite Ew in Hh. injection Hh as <- <-. exists l. auto.
  - rewrite Ew in Hh. injection Hh as <- <-. exists l. auto.
Qed.

Lemma conv_fair {W} (wd : world W) w l w' : fair_world wd -> conversation wd w l w' -> Forall fair l.
Proof. intros F. induction 1 as [|w x w1 l w' H _ IH]; constructor; [exact (F _ _ _ H)|exact IH]. Qed.

(** ** One question at a time *)
Section Steps.
Context {E A : Type}.
Lemma path_end (e : E) (f : N -> prog E A) l o : path (pbind (seek_end e) f) l o <->
  (l = [Img (SoughtEnd None)] /\ o = Err e) \/ (exists q r, l = Img (SoughtEnd (Some q)) :: r /\ path (f q) r o).
Proof.
  cbn. split.
  - destruct l as [|[[[q|]|y g|y g|y g|y g|y g]|b m g|b m g|bs b g|g] r]; try contradiction; cbn; intros H.
    + right. eauto.
    + destruct H as (-> & ->). auto.
  - intros [(-> & ->)|(q & r & -> & H)]; cbn; auto.
Qed.
Lemma path_to p (e : E) (f : N -> prog E A) l o : path (pbind (seek_to p e) f) l o <->
  (l = [Img (SoughtTo p None)] /\ o = Err e) \/ (exists q r, l = Img (SoughtTo p (Some q)) :: r /\ path (f q) r o).
Proof.
  cbn. split.
  - destruct l as [|[[g|y [q|]|y g|y g|y g|y g]|b m g|b m g|bs b g|g] r]; try contradiction; cbn; intros (<- & H).
    + right. eauto.
    + destruct H as (-> & ->). auto.
  - intros [(-> & ->)|(q & r & -> & H)]; cbn; auto.
Qed.
Lemma path_by d (e : E) (f : N -> prog E A) l o : path (pbind (seek_by d e) f) l o <->
  (l = [Img (SoughtBy d None)] /\ o = Err e) \/ (exists q r, l = Img (SoughtBy d (Some q)) :: r /\ path (f q) r o).
Proof.
  cbn. split.
  - destruct l as [|[[g|y g|y [q|]|y g|y g|y g]|b m g|b m g|bs b g|g] r]; try contradiction; cbn; intros (<- & H).
    + right. eauto.
    + destruct H as (-> & ->). auto.
  - intros [(-> & ->)|(q & r & -> & H)]; cbn; auto.
Qed.
Lemma path_all n (e : E) (f : bytes -> prog E A) l o : path (pbind (read_all n e) f) l o <->
  (l = [Img (ReadAll n None)] /\ o = Err e) \/ (exists bs r, l = Img (ReadAll n (Some bs)) :: r /\ path (f bs) r o).
Proof.
  cbn. split.
  - destruct l as [|[[g|y g|y g|y [q|]|y g|y g]|b m g|b m g|bs b g|g] r]; try contradiction; cbn; intros (<- & H).
    + right. eauto.
    + destruct H as (-> & ->). auto.
  - intros [(-> & ->)|(q & r & -> & H)]; cbn; auto.
Qed.
Lemma path_some n (e : E) (f : bytes -> prog E A) l o : path (pbind (read_some n e) f) l o <->
  (l = [Img (ReadSome n None)] /\ o = Err e) \/ (exists bs r, l = Img (ReadSome n (Some bs)) :: r /\ path (f bs) r o).
Proof.
  cbn. split.
  - destruct l as [|[[g|y g|y g|y g|y [q|]|y g]|b m g|b m g|bs b g|g] r]; try contradiction; cbn; intros (<- & H).
    + right. eauto.
    + destruct H as (-> & ->). auto.
  - intros [(-> & ->)|(q & r & -> & H)]; cbn; auto.
Qed.
Lemma path_place a n (e : E) (f : unit -> prog E A) l o : path (pbind (place a n e) f) l o <->
  (l = [Placed a n false] /\ o = Err e) \/ (exists r, l = Placed a n true :: r /\ path (f tt) r o).
Proof.
  cbn. split.
  - destruct l as [|[[g|y g|y g|y g|y g|y g]|b m [|]|b m g|bs b g|g] r]; try contradiction; cbn; intros (<- & <- & H).
    + right. eauto.
    + destruct H as (-> & ->). auto.
  - intros [(-> & ->)|(r & -> & H)]; cbn; auto.
Qed.
Lemma path_fits a n (e : E) (f : unit -> prog E A) l o : path (pbind (fits a n e) f) l o <->
  (l = [Fits a n false] /\ o = Err e) \/ (exists r, l = Fits a n true :: r /\ path (f tt) r o).
Proof.
  cbn. split.
  - destruct l as [|[[g|y g|y g|y g|y g|y g]|b m g|b m [|]|bs b g|g] r]; try contradiction; cbn; intros (<- & <- & H).
    + right. eauto.
    + destruct H as (-> & ->). auto.
  - intros [(-> & ->)|(r & -> & H)]; cbn; auto.
Qed.
Lemma path_write bs a (e : E) (f : unit -> prog E A) l o : path (pbind (write bs a e) f) l o <->
  (l = [Wrote bs a false] /\ o = Err e) \/ (exists r, l = Wrote bs a true :: r /\ path (f tt) r o).
Proof.
  cbn. split.
  - destruct l as [|[[g|y g|y g|y g|y g|y g]|b m g|b m g|bs' b [|]|g] r]; try contradiction; cbn; intros (<- & <- & H).
    + right. eauto.
    + destruct H as (-> & ->). auto.
  - intros [(-> & ->)|(r & -> & H)]; cbn; auto.
Qed.
Lemma path_last (f : N -> prog E A) l o : path (pbind last f) l o <-> exists x r, l = Last x :: r /\ path (f x) r o.
Proof.
  cbn. split.
  - destruct l as [|[[g|y g|y g|y g|y g|y g]|b m g|b m g|bs b g|g] r]; try contradiction. eauto.
  - intros (x & r & -> & H). exact H.
Qed.
Lemma path_done (o' : outcome E A) l o : path (Done o') l o <-> l = [] /\ o = o'.
Proof. reflexivity. Qed.
End Steps.

Lemma path_place_last {E} a n (e : E) l o : path (place a n e) l o <->
  (l = [Placed a n false] /\ o = Err e) \/ (l = [Placed a n true] /\ o = Ok tt).
Proof.
  assert (H : path (place a n e) l o <-> path (pbind (place a n e) (fun _ => Done (Ok tt))) l o).
  { cbn. destruct l as [|[[g|y g|y g|y g|y g|y g]|b m [|]|b m g|bs b g|g] r]; cbn; tauto. }
  rewrite H, path_place. split; intros [K|K]; auto; right.
  - destruct K as (r & -> & -> & ->). auto.
  - destruct K as (-> & ->). exists []. split; [reflexivity|]. split; reflexivity.
Qed.
Lemma path_write_last {E} bs a (e : E) l o : path (write bs a e) l o <->
  (l = [Wrote bs a false] /\ o = Err e) \/ (l = [Wrote bs a true] /\ o = Ok tt).
Proof.
  assert (H : path (write bs a e) l o <-> path (pbind (write bs a e) (fun _ => Done (Ok tt))) l o).
  { cbn. destruct l as [|[[g|y g|y g|y g|y g|y g]|b m g|b m g|bs' b [|]|g] r]; cbn; tauto. }
  rewrite H, path_write. split; intros [K|K]; auto; right.
  - destruct K as (r & -> & -> & ->). auto.
  - destruct K as (-> & ->). exists []. split; [reflexivity|]. split; reflexivity.
Qed.

Lemma path_bind {E A B} (x : prog E A) (f : A -> prog E B) : forall l o, path (pbind x f) l o <->
  (exists l1 l2 a, l = l1 ++ l2 /\ path x l1 (Ok a) /\ path (f a) l2 o) \/
  (exists e, path x l (Err e) /\ o = Err e) \/ (exists w, path x l (Panic w) /\ o = Panic w).
Proof.
  induction x as [o0|k IH|x k IH|x k IH|x k IH|x k IH|a n k IH|a n k IH|bs a k IH|k IH]; intros l o.
  { destruct o0 as [a|e|w]; cbn; split.
    - intros H. left. exists [], l, a. auto.
    - intros [(l1 & l2 & a' & -> & (-> & E1) & H)|[(e & (_ & H) & _)|(w & (_ & H) & _)]]; try discriminate. injection E1 as ->. exact H.
    - intros (-> & ->). right. left. eauto.
    - intros [(l1 & l2 & a' & _ & (_ & E1) & _)|[(e' & (-> & E1) & ->)|(w & (_ & H) & _)]]; try discriminate. injection E1 as ->. auto.
    - intros (-> & ->). right. right. eauto.
    - intros [(l1 & l2 & a' & _ & (_ & E1) & _)|[(e' & (_ & E1) & _)|(w' & (-> & E1) & ->)]]; try discriminate. injection E1 as ->. auto. }
  all: cbn [pbind path].
  all: destruct l as [|[[g|y g|y g|y g|y g|y g]|b m g|b m g|bs' b g|g] r]; cbn.
  all: try (split; [contradiction|]; intros [([|z l1] & l2 & a' & E1 & P & _)|[(? & H & _)|(? & H & _)]]; [contradiction| |contradiction|contradiction];
            cbn in E1; try discriminate; injection E1 as <- ->; contradiction).
  all: try rewrite IH; split; intros H.
  all: try (destruct H as [(l1 & l2 & a' & -> & P & Q)|[(e & P & ->)|(w & P & ->)]]; [left; eexists (_ :: l1), l2, a'; cbn; auto|right; left; eauto|right; right; eauto]; fail).
  all: try (destruct H as (<- & H); destruct H as [(l1 & l2 & a' & -> & P & Q)|[(e & P & ->)|(w & P & ->)]]; [left; eexists (_ :: l1), l2, a'; cbn; auto|right; left; eauto|right; right; eauto]; fail).
  all: try (destruct H as (<- & <- & H); destruct H as [(l1 & l2 & a' & -> & P & Q)|[(e & P & ->)|(w & P & ->)]]; [left; eexists (_ :: l1), l2, a'; cbn; auto|right; left; eauto|right; right; eauto]; fail).
  all: destruct H as [([|z l1] & l2 & a' & E1 & P & Q)|[(e & P & ->)|(w & P & ->)]]; [contradiction|injection E1 as <- ->| |].
  all: try (destruct P as (<- & P)); try (destruct P as (<- & P)); repeat (split; [reflexivity|]).
  all: try (left; exists l1, l2, a'; auto; fail); try (right; left; eauto; fail); try (right; right; eauto; fail).
Qed.
