(** Boolean versions of [bytes_ok], [wt] and [within], for concrete cases. *)
From Coq Require Import ZArith String List Bool Lia.
From Coq Require Import ZifyBool ZifyNat.
From Verif Require Import SpecClasses Base SpecSSZ ModelSSZ SpecObj LemTy LemMatch.
Import ListNotations.
Open Scope Z_scope.

Fixpoint bytes_okb (l : list Z) : bool :=
  match l with [] => true | x :: r => (0 <=? x) && (x <? 256) && bytes_okb r end.
Lemma bytes_okb_ok l : bytes_okb l = true -> bytes_ok l.
Proof.
  induction l; cbn [bytes_okb]; intros E; constructor;
    apply andb_true_iff in E as [E1 E2]; [unfold byte_ok; lia|exact (IHl E2)].
Qed.

Fixpoint wtb (t : ty) (v : val) {struct t} : bool :=
  match t, v with
  | TBytes n, VBytes l => (zlen l =? n) && bytes_okb l
  | TSlot, VNum x => (0 <=? x) && (x <? 2 ^ 64)
  | TBoolean, VBool _ => true
  | TBitvector n, VBits l => zlen l =? n
  | TBitlist _, VBits _ => true
  | TVector t' n, VSeq l => (zlen l =? n) && forallb (wtb t') l
  | TListF t' _, VSeq l => forallb (wtb t') l
  | TListV t' _, VSeq l => forallb (wtb t') l
  | TClass _ fs, VSeq l => all2b wtb fs l
  | _, _ => false
  end.
Lemma wtb_wt t : forall v, wtb t v = true -> wt t v.
Proof.
  assert (F : forall t l, (forall v, wtb t v = true -> wt t v) -> forallb (wtb t) l = true -> Forall (wt t) l).
  { intros t0 l Ht E. rewrite forallb_forall in E. apply Forall_forall. auto. }
  induction t using ty_ind'; intros v E; destruct v; cbn [wtb] in E; try discriminate; cbn [wt]; auto.
  - apply andb_true_iff in E as [E1 E2]. split; [lia|]. now apply bytes_okb_ok.
  - lia.
  - lia.
  - apply andb_true_iff in E as [E1 E2]. split; [lia|]. auto.
  - apply all2b_Forall2 in E. apply all2_Forall2. revert H. induction E; intros Ha; constructor;
      inversion Ha; subst; auto.
Qed.

Fixpoint withinb (t : ty) (v : val) {struct t} : bool :=
  match t, v with
  | TBitlist limit, VBits l => zlen l <=? limit
  | TVector t' _, VSeq l => forallb (withinb t') l
  | TListF t' limit, VSeq l => (zlen l <=? limit) && forallb (withinb t') l
  | TListV t' limit, VSeq l => (zlen l <=? limit) && forallb (withinb t') l
  | TClass _ fs, VSeq l => all2b withinb fs l
  | _, _ => true
  end.
Lemma withinb_within t : forall v, withinb t v = true -> within t v.
Proof.
  assert (F : forall t l, (forall v, withinb t v = true -> within t v) -> forallb (withinb t) l = true -> Forall (within t) l).
  { intros t0 l Ht E. rewrite forallb_forall in E. apply Forall_forall. auto. }
  induction t using ty_ind'; intros v E; destruct v; cbn [withinb] in E; try exact I; cbn [within]; auto.
  - lia.
  - apply andb_true_iff in E as [E1 E2]. split; [lia|]. auto.
  - apply andb_true_iff in E as [E1 E2]. split; [lia|]. auto.
  - apply all2b_Forall2 in E. apply all2_Forall2. revert H. induction E; intros Ha; constructor;
      inversion Ha; subst; auto.
Qed.
