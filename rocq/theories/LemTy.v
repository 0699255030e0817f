(** Induction over classes. *)
From Coq Require Import ZArith String List Bool Lia.
From Verif Require Import Base SpecSSZ ModelSSZ SpecObj ModelEth.
Import ListNotations.
Open Scope Z_scope.

Lemma ty_ind' (P : ty -> Prop) :
  (forall n, P (TBytes n)) -> P TSlot -> P TBoolean ->
  (forall n, P (TBitvector n)) -> (forall n, P (TBitlist n)) ->
  (forall t n, P t -> P (TVector t n)) ->
  (forall t n, P t -> P (TListF t n)) ->
  (forall t n, P t -> P (TListV t n)) ->
  (forall ci fs, Forall P fs -> P (TClass ci fs)) ->
  forall t, P t.
Proof.
  intros H1 H2 H3 H4 H5 H6 H7 H8 H9. fix IH 1. intros t. destruct t as [| | | | | t ?|t ?|t ?|ci fs].
  - apply H1.
  - exact H2.
  - exact H3.
  - apply H4.
  - apply H5.
  - apply H6, IH.
  - apply H7, IH.
  - apply H8, IH.
  - apply H9. revert fs. fix IHfs 1. intros [|f fs]; constructor; [apply IH|apply IHfs].
Qed.

Lemma all2_Forall2 {A B} (P : A -> B -> Prop) l m : all2 P l m <-> Forall2 P l m.
Proof.
  split.
  - revert m; induction l; destruct m; cbn; try easy. intros [? ?]. constructor; auto.
  - induction 1; cbn; auto.
Qed.

Lemma nats_eqb_eq l m : nats_eqb l m = true <-> l = m.
Proof.
  revert m; induction l; destruct m; cbn; try easy.
  rewrite andb_true_iff, Nat.eqb_eq, IHl. split; [intros [-> ->]; auto|intros [= -> ->]; auto].
Qed.

Record class_wf (ci : class_info) (fs : list ty) : Prop := {
  cw_fields : Forall (fun t => wf t = true) fs;
  cw_nonempty : fs <> [];
  cw_ser : ci_ser ci = seq 0 (length fs);
  cw_des : ci_des ci = seq 0 (length fs);
  cw_hash : ci_hash ci = seq 0 (length fs);
  cw_size : ci_size ci = if existsb (fun t => get_ssz_size t =? 0) fs then 0 else fixed_size fs;
  cw_small : fixed_size fs < 2 ^ 32
}.
Lemma wf_class ci fs : wf (TClass ci fs) = true -> class_wf ci fs.
Proof.
  cbn [wf]. rewrite !andb_true_iff, forallb_forall, !nats_eqb_eq, Z.eqb_eq, !Z.ltb_lt.
  intros [[[[[[H1 H2] H3] H4] H5] H6] H7]. constructor; auto.
  - now apply Forall_forall.
  - intros ->. cbn in H2. lia.
Qed.

Lemma all_classes_wf_mainnet : forallb (fun p => wf (snd p)) (all_classes mainnet) = true.
Proof. vm_compute. reflexivity. Qed.
Lemma all_classes_wf_minimal : forallb (fun p => wf (snd p)) (all_classes minimal) = true.
Proof. vm_compute. reflexivity. Qed.
