(** The verdict of deserialize (true, false, or undefined behaviour) does not
    depend on what the object held. *)
From Coq Require Import ZArith String List Bool Lia.
From Coq Require Import ZifyBool ZifyNat.
From Verif Require Import Base SpecSSZ ModelSSZ SpecObj LemBase LemTy LemSer LemDes LemCodec LemCodecSeq LemCodecAll.
Import ListNotations.
Open Scope Z_scope.
Ltac Zify.zify_post_hook ::= Z.div_mod_to_equations.

(** Forget the object. *)
Definition same (p : vtable) (W : val -> Prop) : Prop :=
  forall o1 o2 b, W o1 -> W o2 -> bytes_ok b -> verdict (vt_des p o1 b) = verdict (vt_des p o2 b).

Lemma verdict_bind {A B} (m : outcome (bool * A)) (f : A -> B) :
  verdict (bind m (fun '(r, a) => Ok (r, f a))) = verdict m.
Proof. destruct m as [[r a]| |]; reflexivity. Qed.

Lemma vector_loop_same safe p W b : good safe p W -> same p W -> bytes_ok b -> forall l1 l2 i,
  Forall W l1 -> Forall W l2 -> length l1 = length l2 ->
  verdict (vector_des_loop p b i l1) = verdict (vector_des_loop p b i l2).
Proof.
  intros G S Hb. induction l1 as [|o1 l1 IH]; intros [|o2 l2] i H1 H2 L; try discriminate; auto.
  inversion H1; inversion H2; subst. injection L as L. cbn [vector_des_loop].
  destruct (slice b _ _) as [s| |] eqn:Es; cbn [bind]; auto.
  assert (Hs : bytes_ok s) by (eapply slice_bytes_ok; eauto).
  pose proof (S o1 o2 s ltac:(auto) ltac:(auto) Hs) as E.
  destruct (vt_des p o1 s) as [[[] v1]| |], (vt_des p o2 s) as [[[] v2]| |]; try discriminate E; auto.
  cbn [bind]. specialize (IH l2 (i + 1) ltac:(auto) ltac:(auto) L).
  destruct (vector_des_loop p b (i + 1) l1) as [[? ?]| |], (vector_des_loop p b (i + 1) l2) as [[? ?]| |];
    cbn in *; congruence.
Qed.

Lemma call_des_same safe p W Ws b i j k o1 o2 : good safe p W -> same p W -> bytes_ok b ->
  holds Ws o1 -> holds Ws o2 -> nth_error Ws k = Some W ->
  verdict (call_des p k o1 b i j) = verdict (call_des p k o2 b i j) /\
  forall r o1' o2', call_des p k o1 b i j = Ok (r, o1') -> call_des p k o2 b i j = Ok (r, o2') ->
    holds Ws o1' /\ holds Ws o2'.
Proof.
  intros G S Hb H1 H2 HW. unfold call_des.
  assert (Hn : forall o, holds Ws o -> W (nth k o (vt_default p))).
  { intros o Ho. clear - Ho HW G. revert k HW. induction Ho; intros [|k] HW; try discriminate; cbn in *.
    - now injection HW as <-.
    - auto. }
  assert (Hu : forall o v, holds Ws o -> W v -> holds Ws (upd o k v)).
  { intros o v Ho Hv. clear - Ho HW Hv. revert k HW. induction Ho; intros [|k] HW; try discriminate; cbn in *.
    - injection HW as <-. constructor; auto.
    - constructor; [auto|apply IHHo; auto]. }
  destruct (slice b i j) as [s| |] eqn:Es; cbn [bind]; [|split; [auto|discriminate]|split; [auto|discriminate]].
  assert (Hs : bytes_ok s) by (eapply slice_bytes_ok; eauto).
  split.
  - pose proof (S _ _ s (Hn o1 H1) (Hn o2 H2) Hs) as E.
    destruct (vt_des p _ s) as [[? ?]| |], (vt_des p (nth k o2 _) s) as [[? ?]| |]; cbn in *; congruence.
  - intros r o1' o2' E1 E2. apply bind_ok in E1 as ([r1 v1] & E1 & E1'). apply bind_ok in E2 as ([r2 v2] & E2 & E2').
    injection E1' as -> <-. injection E2' as -> <-.
    split; apply Hu; auto.
    + exact (good_pres _ _ _ _ _ _ _ G (Hn _ H1) Hs E1).
    + exact (good_pres _ _ _ _ _ _ _ G (Hn _ H2) Hs E2).
Qed.

Lemma loop_same safe b F ps Ws : bytes_ok b -> gooda safe ps Ws -> Forall2 same ps Ws ->
  forall qs k, (forall i p, nth_error qs i = Some p -> nth_error ps (k + i) = Some p) ->
  forall it lo last o1 o2, holds Ws o1 -> holds Ws o2 ->
  match last with Some (kp, pp) => nth_error ps kp = Some pp | None => True end ->
  verdict (deserialize_loop b F (number k qs) it lo last o1)
  = verdict (deserialize_loop b F (number k qs) it lo last o2).
Proof.
  intros Hb Hg Hs.
  assert (Hw : forall k p, nth_error ps k = Some p -> exists W, nth_error Ws k = Some W /\ good safe p W /\ same p W).
  { clear - Hg Hs. revert Hs. induction Hg; intros Hs [|k] p Hk; try discriminate; inversion Hs; subst; cbn in *.
    - injection Hk as <-. eauto.
    - eauto. }
  induction qs as [|q qs IH]; intros k Hq it lo last o1 o2 H1 H2 Hl.
  - cbn. destruct (lo =? 0); auto. destruct last as [[kp pp]|]; auto.
    destruct (Hw _ _ Hl) as (W & HW & HG & HS). eapply call_des_same; eauto.
  - rewrite number_cons. cbn [deserialize_loop].
    assert (Hk : nth_error ps k = Some q) by (specialize (Hq 0%nat q eq_refl); now rewrite Nat.add_0_r in Hq).
    assert (Hq' : forall i p, nth_error qs i = Some p -> nth_error ps (S k + i) = Some p).
    { intros i p Hi. specialize (Hq (S i) p Hi). now replace (S k + i)%nat with (k + S i)%nat by lia. }
    destruct (negb (vt_size q =? 0)).
    + destruct (_ <? _); auto. destruct (Hw _ _ Hk) as (W & HW & HG & HS).
      destruct (call_des_same safe q W Ws b it (it + vt_size q) k o1 o2 HG HS Hb H1 H2 HW) as [E P].
      destruct (call_des q k o1 b it _) as [[r1 o1']| |], (call_des q k o2 b it _) as [[r2 o2']| |];
        try discriminate E; auto.
      cbn [bind]. injection E as <-. destruct (P _ _ _ eq_refl eq_refl). destruct r1; auto.
    + destruct (_ <? _); auto. destruct (slice b it (it + 4)) as [s| |]; cbn [bind]; auto.
      destruct (_ <? _); auto. destruct (negb (lo =? 0)).
      * destruct (_ <? _); auto. destruct last as [[kp pp]|]; auto.
        destruct (Hw _ _ Hl) as (W & HW & HG & HS).
        destruct (call_des_same safe pp W Ws b lo (le_val s) kp o1 o2 HG HS Hb H1 H2 HW) as [E P].
        destruct (call_des pp kp o1 b lo _) as [[r1 o1']| |], (call_des pp kp o2 b lo _) as [[r2 o2']| |];
          try discriminate E; auto.
        cbn [bind]. injection E as <-. destruct (P _ _ _ eq_refl eq_refl). destruct r1; auto.
      * destruct (negb _); auto.
Qed.

Theorem same_all t : wf t = true -> same (vt t) (wt t).
Proof.
  induction t using ty_ind'; intros Hwf o1 o2 b H1 H2 Hb.
  - cbn [vt vt_des]. unfold bytes_deserialize. now destruct (negb _).
  - cbn [vt vt_des]. unfold slot_deserialize. destruct (negb _); auto.
  - cbn [vt vt_des]. rewrite !boolean_des_val. destruct b as [|x [|]]; auto. now destruct (x >? 1).
  - cbn [vt vt_des]. unfold bitvector_deserialize. destruct (negb _); auto.
    destruct o1, o2; cbn in H1, H2; solve [tauto|reflexivity].
  - cbn [vt vt_des]. reflexivity.
  - cbn [wf] in Hwf. apply andb_true_iff in Hwf as [Hwf _]. apply andb_true_iff in Hwf as [Hwf _].
    cbn [vt vt_des]. unfold vector_deserialize. destruct (negb _); auto.
    destruct o1 as [| | | |l1], o2 as [| | | |l2]; cbn [wt] in H1, H2; try tauto.
    rewrite !verdict_bind.
    apply (vector_loop_same false _ (wt t)); try tauto; auto.
    + apply good_all; auto; discriminate.
    + destruct H1, H2. unfold zlen in *. lia.
  - cbn [vt vt_des]. reflexivity.
  - cbn [vt vt_des]. reflexivity.
  - apply wf_class in Hwf. destruct Hwf.
    apply (class_W_wt ci fs) in H1, H2.
    destruct o1 as [| | | |l1], o2 as [| | | |l2]; cbn [class_W] in H1, H2; try tauto.
    cbn [vt vt_des class_deserialize]. rewrite !verdict_bind. unfold deserialize_.
    rewrite cw_des, <- (map_length vt fs), !pick_des_number.
    apply (loop_same false b _ (map vt fs) (map wt fs)); auto.
    + clear - cw_fields. induction cw_fields; cbn [map]; constructor; auto. apply good_all; auto; discriminate.
    + clear - cw_fields H. induction H; cbn [map]; constructor; inversion cw_fields; subst; auto.
Qed.
