(** Classes and SSZ types of the same shape. *)
From Coq Require Import ZArith String List Bool Lia.
From Coq Require Import ZifyBool ZifyNat.
From Verif Require Import Base SpecSSZ SpecPhase0 ModelSSZ ModelEth SpecObj SpecClasses LemBase LemBits LemTy LemSer LemDes LemCodec LemCodecSeq LemCodecAll.
Import ListNotations.
Open Scope Z_scope.
Ltac Zify.zify_post_hook ::= Z.div_mod_to_equations.

Lemma all2b_Forall2 {A B} (P : A -> B -> bool) l m :
  all2b P l m = true <-> Forall2 (fun a b => P a b = true) l m.
Proof.
  split.
  - revert m; induction l; destruct m; cbn; try easy. intros E. apply andb_true_iff in E as [? ?].
    constructor; auto.
  - induction 1; cbn; auto. rewrite H. auto.
Qed.

Lemma matches_variable t : wf t = true -> forall s, matches t s = true ->
  is_variable s = (get_ssz_size t =? 0).
Proof.
  unfold get_ssz_size.
  induction t using ty_ind'; intros Hwf s Hm; destruct s; try discriminate Hm; cbn [matches is_variable] in *.
  - cbn [vt vt_size]. cbn [wf] in Hwf. lia.
  - reflexivity.
  - reflexivity.
  - cbn [vt vt_size]. cbn [wf] in Hwf. unfold BITS_PER_BYTE. lia.
  - reflexivity.
  - cbn [wf] in Hwf. apply andb_true_iff in Hwf as [Hwf Hsz]. apply andb_true_iff in Hwf as [Hwf Hn].
    apply andb_true_iff in Hm as [_ Hm]. rewrite (IHt Hwf _ Hm). cbn [vt vt_size].
    unfold get_ssz_size in Hsz. apply Z.ltb_lt in Hsz. apply Z.ltb_lt in Hn. nia.
  - reflexivity.
  - reflexivity.
  - apply wf_class in Hwf. destruct Hwf. cbn [vt vt_size]. rewrite cw_size.
    assert (E : existsb (fun f => is_variable (snd f)) fields
                = existsb (fun t => get_ssz_size t =? 0) fs).
    { apply all2b_Forall2 in Hm. clear - Hm H cw_fields. revert H cw_fields.
      induction Hm as [|t0 g fs gs Hg _ IH]; intros Ha Hw; auto.
      inversion Ha as [|? ? Hx Hxs]; inversion Hw; subst. cbn [existsb].
      f_equal; [apply Hx; auto|apply IH; auto]. }
    rewrite E. destruct (existsb _ fs); auto.
    pose proof (vt_fixed_fixed_size fs) as F.
    assert (0 < fixed_size fs).
    { rewrite <- F. apply (vt_fixed_pos false (map vt fs) (map wt fs)).
      - clear - cw_fields. induction cw_fields; cbn [map]; constructor; auto.
        apply good_all; auto; discriminate.
      - destruct fs; [easy|discriminate]. }
    lia.
Qed.

Lemma matches_type t : forall s v, matches t s = true -> (has_type s v <-> wt t v /\ within t v).
Proof.
  induction t using ty_ind'; intros s v Hm; destruct s; try discriminate Hm; cbn [matches] in Hm;
    destruct v; cbn [has_type wt within]; try tauto.
  - apply Z.eqb_eq in Hm. subst. tauto.
  - apply Z.eqb_eq in Hm. subst. tauto.
  - apply Z.eqb_eq in Hm. subst. tauto.
  - apply andb_true_iff in Hm as [Hn Hm]. apply Z.eqb_eq in Hn. subst.
    assert (F : Forall (has_type s) l <-> Forall (wt t) l /\ Forall (within t) l).
    { rewrite !Forall_forall. split.
      - intros Ha. split; intros x Hx; apply (IHt s x Hm); auto.
      - intros [H1 H2] x Hx. apply (IHt s x Hm); auto. }
    tauto.
  - apply andb_true_iff in Hm as [Hn Hm]. apply Z.eqb_eq in Hn. subst.
    assert (F : Forall (has_type s) l <-> Forall (wt t) l /\ Forall (within t) l).
    { rewrite !Forall_forall. split.
      - intros Ha. split; intros x Hx; apply (IHt s x Hm); auto.
      - intros [H1 H2] x Hx. apply (IHt s x Hm); auto. }
    tauto.
  - apply andb_true_iff in Hm as [Hn Hm]. apply Z.eqb_eq in Hn. subst.
    assert (F : Forall (has_type s) l <-> Forall (wt t) l /\ Forall (within t) l).
    { rewrite !Forall_forall. split.
      - intros Ha. split; intros x Hx; apply (IHt s x Hm); auto.
      - intros [H1 H2] x Hx. apply (IHt s x Hm); auto. }
    tauto.
  - apply all2b_Forall2 in Hm. revert l H.
    induction Hm as [|t0 [nm s0] fs gs Hm _ IH]; intros l Ha; destruct l; cbn [all2]; try tauto.
    inversion Ha as [|? ? Hx Hxs]; subst. specialize (IH l ltac:(auto)). cbn [snd] in Hm.
    rewrite (Hx s0 v Hm). rewrite IH. tauto.
Qed.

Lemma go_es fs gs obj :
  Forall2 (fun t g => matches t (snd g) = true) fs gs ->
  Forall (fun t => wf t = true) fs ->
  Forall2 (fun t v => forall s, matches t s = true -> serialize t v = ssz_serialize s v) fs obj ->
  (fix go (fs : list (string * sty)) (l : list val) : list (bool * list Z) :=
     match fs, l with
     | (_, t') :: fs', v' :: l' => (is_variable t', ssz_serialize t' v') :: go fs' l'
     | _, _ => []
     end) gs obj = class_es (map vt fs) obj.
Proof.
  intros Hm. revert obj. induction Hm as [|t [nm s] fs gs Hm _ IH]; intros obj Hwf Hs; inversion Hs as [|? v ? obj' Hv Hvs]; subst; auto.
  inversion Hwf; subst. cbn [snd] in Hm. unfold class_es, es_of. cbn [map combine fst snd].
  rewrite (matches_variable t) by auto. rewrite <- Hv by auto. f_equal.
  apply IH; auto.
Qed.

Lemma matches_serialize t : wf t = true -> forall s v, matches t s = true -> wt t v ->
  serialize t v = ssz_serialize s v.
Proof.
  unfold serialize.
  induction t using ty_ind'; intros Hwf s v Hm Hv; destruct s; try discriminate Hm; cbn [matches] in Hm;
    destruct v; cbn [wt] in Hv; try tauto; cbn [ssz_serialize]; try reflexivity.
  - apply Z.eqb_eq in Hm. subst. cbn [wf] in Hwf. cbn [vt vt_ser]. apply bitvector_serialize_le; lia.
  - cbn [vt vt_ser]. apply bitlist_serialize_le.
  - cbn [wf] in Hwf. apply andb_true_iff in Hwf as [Hwf Hsz]. apply andb_true_iff in Hwf as [Hwf Hn].
    apply andb_true_iff in Hm as [_ Hm]. destruct Hv as [Hl Hv]. cbn [vt vt_ser].
    rewrite concat_serialize_series. f_equal. apply map_ext_in. intros v Hin.
    rewrite Forall_forall in Hv.
    rewrite (matches_variable t) by auto. apply Z.ltb_lt in Hsz.
    replace (get_ssz_size t =? 0) with false by lia. f_equal. now apply IHt; auto.
  - cbn [wf] in Hwf. apply andb_true_iff in Hwf as [Hwf Hsz].
    apply andb_true_iff in Hm as [_ Hm]. cbn [vt vt_ser].
    rewrite concat_serialize_series. f_equal. apply map_ext_in. intros v Hin.
    rewrite Forall_forall in Hv.
    rewrite (matches_variable t) by auto. apply Z.ltb_lt in Hsz.
    replace (get_ssz_size t =? 0) with false by lia. f_equal. now apply IHt; auto.
  - cbn [wf] in Hwf. apply andb_true_iff in Hwf as [Hwf Hsz].
    apply andb_true_iff in Hm as [_ Hm]. cbn [vt vt_ser].
    rewrite listv_serialize_series. f_equal. apply map_ext_in. intros v Hin.
    rewrite Forall_forall in Hv.
    rewrite (matches_variable t) by auto. rewrite Hsz. f_equal. now apply IHt; auto.
  - apply wf_class in Hwf. destruct Hwf. apply all2b_Forall2 in Hm.
    apply all2_Forall2 in Hv.
    assert (Gd : gooda false (map vt fs) (map wt fs)).
    { clear - cw_fields. induction cw_fields; cbn [map]; constructor; auto.
      apply good_all; auto; discriminate. }
    assert (Hh : holds (map wt fs) l).
    { clear - Hv. induction Hv; cbn [map]; constructor; auto. }
    cbn [vt vt_ser].
    assert (Hse : ci_ser ci = seq 0 (length (map vt fs))) by now rewrite map_length.
    destruct (class_ser_series false ci (map vt fs) (map wt fs) Gd Hse l Hh) as [E _].
    rewrite E. f_equal. symmetry. apply go_es; auto.
    clear - H Hv cw_fields. revert H cw_fields. induction Hv; intros Ha Hw; constructor;
      inversion Ha; inversion Hw; subst; auto. intros s Hms. unfold serialize. auto.
Qed.


Definition names_match (a : list (string * ty)) (b : list (string * sty)) : bool :=
  forallb (fun x => forallb (fun y => negb (String.eqb (fst x) (fst y))
                                      || matches (snd x) (snd y)) b) a.
Lemma match_mainnet : names_match (all_classes mainnet) (phase0_containers preset_mainnet) = true.
Proof. vm_compute. reflexivity. Qed.
Lemma match_minimal : names_match (all_classes minimal) (phase0_containers preset_minimal) = true.
Proof. vm_compute. reflexivity. Qed.

Lemma names_match_in a b n t s : names_match a b = true -> In (n, t) a -> In (n, s) b -> matches t s = true.
Proof.
  unfold names_match. rewrite forallb_forall. intros E Ha Hb. specialize (E _ Ha).
  rewrite forallb_forall in E. specialize (E _ Hb). cbn [fst snd] in E.
  now rewrite String.eqb_refl in E.
Qed.
Lemma container_pair_matches t s : container_pair t s -> matches t s = true.
Proof.
  intros [n H1 H2|n H1 H2].
  - exact (names_match_in _ _ n t s match_mainnet H1 H2).
  - exact (names_match_in _ _ n t s match_minimal H1 H2).
Qed.
Lemma is_container_wf t : is_container t -> wf t = true.
Proof.
  intros [n H|n H];
    [pose proof all_classes_wf_mainnet as E|pose proof all_classes_wf_minimal as E];
    rewrite forallb_forall in E; exact (E _ H).
Qed.
Lemma container_pair_container t s : container_pair t s -> is_container t.
Proof. intros [n H1 _|n H1 _]; [eapply cont_mainnet|eapply cont_minimal]; eauto. Qed.
