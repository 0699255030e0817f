(** Facts about ModelPred. *)
From Coq Require Import ZArith String List Bool Lia ZifyBool ZifyNat Sorting.Sorted.
From Verif Require Import Base SpecSSZ ModelSSZ ModelBytes ModelEth ModelPred SpecPred SpecObj LemBase LemBytes
  LemTy LemCheck Samples.
Import ListNotations.
Open Scope string_scope.
Open Scope list_scope.
Open Scope Z_scope.

(** ** Equality *)
(** Classes all of whose members have an operator== of their own. *)
Fixpoint eq_own (t : ty) : bool :=
  match t with
  | TBytes _ | TSlot | TBoolean | TBitvector _ | TBitlist _ => true
  | TVector _ _ | TListF _ _ | TListV _ _ => false
  | TClass ci fs => ci_eq ci && forallb eq_own fs
  end.
Lemma bits_eqb_eq a : forall b, bits_eqb a b = true <-> a = b.
Proof.
  induction a as [|x a IH]; intros [|y b]; cbn [bits_eqb]; try (split; [discriminate|congruence]).
  - split; reflexivity.
  - rewrite andb_true_iff, Bool.eqb_true_iff, IH. split; [intros [-> ->]; reflexivity|intros [= -> ->]; auto].
Qed.
Lemma op_eq_own t : forall a b, eq_own t = true -> wt t a -> wt t b -> (op_eq t a b = true <-> a = b).
Proof.
  induction t as [n| | |n|n|t n IH|t n IH|t n IH|ci fs IH] using ty_ind'; intros a b He Ha Hb;
    try discriminate He; destruct a, b; cbn [wt] in Ha, Hb; try contradiction; cbn [op_eq].
  - rewrite bytes_eqb_eq. split; congruence.
  - rewrite Z.eqb_eq. split; congruence.
  - rewrite Bool.eqb_true_iff. split; congruence.
  - rewrite bits_eqb_eq. split; congruence.
  - rewrite bits_eqb_eq. split; congruence.
  - cbn [eq_own] in He. apply andb_true_iff in He. destruct He as [Hci Hfs]. rewrite Hci. revert l l0 Ha Hb.
    induction IH as [|f fs' Hf Hfs' IHfs]; intros [|v l] [|w m] Ha Hb; cbn [all2] in Ha, Hb; try contradiction.
    + split; reflexivity.
    + cbn [forallb] in Hfs. apply andb_true_iff in Hfs. destruct Hfs as [Ef Efs].
      destruct Ha as [Hv Hl], Hb as [Hw Hm]. rewrite andb_true_iff. rewrite (Hf v w Ef Hv Hw).
      rewrite (IHfs Efs l m Hl Hm). split; [intros [-> [= ->]]; reflexivity|intros [= -> ->]; auto].
Qed.
Lemma op_eq_inherited ci fs a b : ci_eq ci = false -> op_eq (TClass ci fs) a b = true.
Proof. intros E. cbn [op_eq]. rewrite E. reflexivity. Qed.

(** An object different from the default one. *)
Fixpoint tweak (t : ty) : val :=
  match t with
  | TBytes n => VBytes (1 :: repeat 0 (Z.to_nat (n - 1)))
  | TSlot => VNum 1
  | TBoolean => VBool true
  | TBitvector n => VBits (true :: repeat false (Z.to_nat (n - 1)))
  | TBitlist _ => VBits [true]
  | TVector t' n => VSeq (tweak t' :: repeat (default t') (Z.to_nat (n - 1)))
  | TListF t' _ | TListV t' _ => VSeq [default t']
  | TClass _ fs => match fs with f :: fs' => VSeq (tweak f :: map default fs') | [] => VSeq [] end
  end.
Fixpoint tweak_last (fs : list ty) : list val :=
  match fs with
  | [] => []
  | [f] => [tweak f]
  | f :: fs' => default f :: tweak_last fs'
  end.
Definition blind_witness (t : ty) : val :=
  match t with
  | TClass ci fs => if ci_eq ci then VSeq (tweak_last fs) else tweak t
  | _ => tweak t
  end.
Definition blind (t : ty) : bool :=
  let a := default t in let b := blind_witness t in
  wtb t a && wtb t b && negb (bytes_eqb (vt_ser (vt t) a) (vt_ser (vt t) b)) && op_eq t a b.
Lemma blind_ok t : blind t = true -> exists a b, wt t a /\ wt t b /\ a <> b /\ op_eq t a b = true.
Proof.
  unfold blind. rewrite !andb_true_iff. intros [[[Ha Hb] Hn] He].
  exists (default t), (blind_witness t). split; [apply wtb_wt; auto|]. split; [apply wtb_wt; auto|].
  split; [|auto]. intros E. rewrite <- E in Hn. apply negb_true_iff in Hn.
  assert (T : bytes_eqb (vt_ser (vt t) (default t)) (vt_ser (vt t) (default t)) = true)
    by (apply bytes_eqb_eq; reflexivity). congruence.
Qed.
Definition eq_classes : list string := ["Fork"; "BeaconBlockHeader"; "VoluntaryExit"; "SignedVoluntaryExit"].
Definition named (l : list string) (n : string) : bool := existsb (String.eqb n) l.
Lemma named_in l n : named l n = true <-> In n l.
Proof.
  unfold named. rewrite existsb_exists. split.
  - intros (x & Hx & E). apply String.eqb_eq in E. congruence.
  - intros Hn. exists n. split; [auto|apply String.eqb_refl].
Qed.
Lemma blind_all c : c = mainnet \/ c = minimal ->
  forallb (fun e => named eq_classes (fst e) || blind (snd e)) (all_classes c) = true.
Proof. intros [->| ->]; vm_compute; reflexivity. Qed.
Lemma eq_refuted c name t : c = mainnet \/ c = minimal -> In (name, t) (all_classes c) ->
  ~ In name eq_classes -> exists a b, wt t a /\ wt t b /\ a <> b /\ op_eq t a b = true.
Proof.
  intros Hc Hin Hn. pose proof (blind_all c Hc) as B. rewrite forallb_forall in B. specialize (B _ Hin).
  cbn [fst snd] in B. rewrite <- named_in in Hn. apply blind_ok. destruct (named eq_classes name); [congruence|exact B].
Qed.
Lemma eq_containers c name t a b : In (name, t) (all_classes c) -> In name eq_classes ->
  wt t a -> wt t b -> (op_eq t a b = true <-> a = b).
Proof.
  intros Hin Hn Ha Hb. apply op_eq_own; auto. 
  assert (F : forallb (fun e => negb (named eq_classes (fst e)) || eq_own (snd e)) (all_classes c) = true)
    by reflexivity.
  rewrite forallb_forall in F. specialize (F _ Hin). cbn [fst snd] in F.
  apply named_in in Hn. rewrite Hn in F. exact F.
Qed.
Lemma eq_leaves t a b : match t with TBytes _ | TSlot | TBoolean | TBitvector _ | TBitlist _ => True | _ => False end ->
  wt t a -> wt t b -> (op_eq t a b = true <-> a = b).
Proof. intros Ht. apply op_eq_own. destruct t; try contradiction; reflexivity. Qed.
(** Every class that has no operator== of its own: always equal. *)
Lemma eq_always c name t a b : In (name, t) (all_classes c) -> ~ In name ("BeaconState" :: eq_classes) ->
  op_eq t a b = true.
Proof.
  intros Hin Hn.
  assert (F : forallb (fun e => named ("BeaconState" :: eq_classes) (fst e)
      || match snd e with TClass ci _ => negb (ci_eq ci) | _ => false end) (all_classes c) = true)
    by reflexivity.
  rewrite forallb_forall in F. specialize (F _ Hin). cbn [fst snd] in F. rewrite <- named_in in Hn.
  destruct (named _ name); [congruence|]. destruct t; try discriminate F.
  apply op_eq_inherited. destruct (ci_eq ci); [discriminate F|reflexivity].
Qed.
(** Equality never tells apart equal objects. *)
Lemma op_eq_refl t : forall a, wt t a -> op_eq t a a = true.
Proof.
  induction t as [n| | |n|n|t n IH|t n IH|t n IH|ci fs IH] using ty_ind'; intros a Ha;
    try reflexivity; destruct a; cbn [wt] in Ha; try contradiction; cbn [op_eq].
  - apply bytes_eqb_eq. reflexivity.
  - apply Z.eqb_refl.
  - apply Bool.eqb_reflx.
  - apply bits_eqb_eq. reflexivity.
  - apply bits_eqb_eq. reflexivity.
  - destruct (ci_eq ci); [|reflexivity]. revert l Ha.
    induction IH as [|f fs' Hf Hfs IHfs]; intros [|v l] Ha; cbn [all2] in Ha; try contradiction; [reflexivity|].
    destruct Ha as [Hv Hl]. rewrite (Hf v Hv). cbn [andb]. apply IHfs. exact Hl.
Qed.

(** ** Attestation data *)
Lemma all2_cons_inv {A B} (P : A -> B -> Prop) a l m : all2 P (a :: l) m ->
  exists b m', m = b :: m' /\ P a b /\ all2 P l m'.
Proof. destruct m as [|b m']; cbn [all2]; [contradiction|]. intros [Hb Hm]. eauto. Qed.
Lemma all2_nil_inv {A B} (P : A -> B -> Prop) m : all2 P [] m -> m = [].
Proof. destruct m; cbn [all2]; [reflexivity|contradiction]. Qed.
Lemma wt_class_inv ci fs v : wt (TClass ci fs) v -> exists l, v = VSeq l /\ all2 wt fs l.
Proof. destruct v; cbn [wt]; try contradiction. eauto. Qed.
Lemma wt_bytes_inv n v : wt (TBytes n) v -> exists l, v = VBytes l.
Proof. destruct v; cbn [wt]; try contradiction. eauto. Qed.
Lemma wt_slot_inv v : wt TSlot v -> exists n, v = VNum n.
Proof. destruct v; cbn [wt]; try contradiction. eauto. Qed.
Lemma wt_boolean_inv v : wt TBoolean v -> exists n, v = VBool n.
Proof. destruct v; cbn [wt]; try contradiction. eauto. Qed.
Ltac split_wt :=
  repeat match goal with
  | H : all2 wt (_ :: _) _ |- _ => apply all2_cons_inv in H; destruct H as (? & ? & -> & ? & ?)
  | H : all2 wt [] _ |- _ => apply all2_nil_inv in H; subst
  | H : wt (TBytes _) _ |- _ => apply wt_bytes_inv in H; destruct H as [? ->]
  | H : wt TSlot _ |- _ => apply wt_slot_inv in H; destruct H as [? ->]
  | H : wt TBoolean _ |- _ => apply wt_boolean_inv in H; destruct H as [? ->]
  end.
Lemma wt_checkpoint v : wt tCheckpoint v -> exists c, v = checkpoint_val c.
Proof.
  intros Hv. apply wt_class_inv in Hv. destruct Hv as (l & -> & Hl). split_wt.
  match goal with |- exists c, VSeq [VNum ?e; VBytes ?r] = _ => exists {| epoch := e; root := r |} end. reflexivity.
Qed.
Lemma wt_att v : wt tAttestationData v -> exists a, v = att_val a.
Proof.
  intros Hv. apply wt_class_inv in Hv. destruct Hv as (l & -> & Hl). split_wt.
  repeat match goal with H : wt tCheckpoint _ |- _ => apply wt_checkpoint in H; destruct H as [? ->] end.
  match goal with |- exists a, VSeq [VNum ?s; VNum ?i; VBytes ?r; checkpoint_val ?c1; checkpoint_val ?c2] = _ =>
    exists {| slot := s; index := i; block_root := r; source := c1; target := c2 |} end. reflexivity.
Qed.
Lemma is_slashable_eq a b : is_slashable (att_val a) (att_val b) = true <-> surround_vote a b.
Proof.
  unfold is_slashable. cbn [op_eq tAttestationData ci_eq negb andb].
  destruct a as [s i r [se sr] [te tr]], b as [s' i' r' [se' sr'] [te' tr']]. unfold surround_vote. cbn. lia.
Qed.
Lemma slashable_surround v w : wt tAttestationData v -> wt tAttestationData w ->
  exists a b, v = att_val a /\ w = att_val b /\ (is_slashable v w = true <-> surround_vote a b).
Proof.
  intros Hv Hw. destruct (wt_att v Hv) as [a ->], (wt_att w Hw) as [b ->].
  exists a, b. split; [reflexivity|]. split; [reflexivity|]. apply is_slashable_eq.
Qed.
Lemma slashable_refuted : exists a b, wt tAttestationData (att_val a) /\ wt tAttestationData (att_val b) /\
  slashable_data a b /\ is_slashable (att_val a) (att_val b) = false.
Proof.
  set (c e := {| epoch := e; root := repeat 7 32 |}).
  exists {| slot := 64; index := 0; block_root := repeat 1 32; source := c 1; target := c 2 |},
         {| slot := 64; index := 0; block_root := repeat 2 32; source := c 1; target := c 2 |}.
  split; [apply wtb_wt; reflexivity|]. split; [apply wtb_wt; reflexivity|]. split; [|reflexivity].
  left. split; [discriminate|reflexivity].
Qed.
(** A double vote that is not also a surround vote goes unnoticed. *)
Lemma double_vote_missed a b : double_vote a b -> is_slashable (att_val a) (att_val b) = false.
Proof.
  intros [_ E]. destruct (is_slashable _ _) eqn:S; [|reflexivity]. apply is_slashable_eq in S.
  destruct S as [_ S]. lia.
Qed.

(** ** Indexed attestations *)
Lemma is_sorted_iff l : is_sorted l = true <-> Sorted Z.le l.
Proof.
  induction l as [|a [|b l] IH].
  - split; [constructor|reflexivity].
  - split; [repeat constructor|reflexivity].
  - change (is_sorted (a :: b :: l)) with (negb (b <? a) && is_sorted (b :: l)). rewrite andb_true_iff, IH. split.
    + intros [Hab Hs]. constructor; [exact Hs|]. constructor. lia.
    + intros Hs. apply Sorted_inv in Hs. destruct Hs as [Hs Hd]. apply HdRel_inv in Hd. split; [lia|exact Hs].
Qed.
Lemma no_adjacent_iff l : is_sorted l = true -> (no_adjacent l = true <-> NoDup l).
Proof.
  intros Hs. apply is_sorted_iff in Hs. apply Sorted_StronglySorted in Hs; [|intros x y z; lia].
  induction Hs as [|a l Hs IH Hf]; [split; [constructor|reflexivity]|].
  destruct l as [|b l]; [split; [repeat constructor; auto|reflexivity]|].
  change (no_adjacent (a :: b :: l)) with (negb (a =? b) && no_adjacent (b :: l)).
  rewrite andb_true_iff, IH. split.
  - intros [Hab Hn]. constructor; [|exact Hn]. intros Hin. 
    inversion Hf as [|? ? Hle Hf']; subst. inversion Hs as [|? ? _ Hb]; subst.
    destruct Hin as [->|Hin]; [lia|]. rewrite Forall_forall in Hb. specialize (Hb _ Hin). lia.
  - intros Hn. inversion Hn as [|? ? Hni Hn']; subst. split; [|exact Hn'].
    destruct (Z.eqb_spec a b) as [->|]; [|reflexivity]. destruct Hni. left. reflexivity.
Qed.
Lemma is_valid_list this l rest : this = VSeq (VSeq (map VNum l) :: rest) ->
  (is_valid this = true <-> valid_indices l).
Proof.
  intros ->. unfold is_valid, valid_indices. cbn [member nth].
  assert (M : map num (map VNum l) = l) by (rewrite map_map; apply map_id). rewrite M.
  destruct (Z.eqb_spec (zlen l) 0) as [E|E].
  - apply zlen_0 in E. split; [discriminate|]. intros [N _]. congruence.
  - destruct (is_sorted l) eqn:S; cbn [negb].
    + rewrite (no_adjacent_iff l S). apply is_sorted_iff in S. split.
      * intros N. split; [intros ->; apply E; reflexivity|]. auto.
      * tauto.
    + split; [discriminate|]. intros (_ & Hs & _). apply is_sorted_iff in Hs. congruence.
Qed.
Lemma indexed_valid c v : wt (tIndexedAttestation c) v ->
  exists l rest, v = VSeq (VSeq (map VNum l) :: rest) /\ (is_valid v = true <-> valid_indices l).
Proof.
  intros Hv. apply wt_class_inv in Hv. destruct Hv as (l' & -> & Hl).
  apply all2_cons_inv in Hl. destruct Hl as (v0 & rest & -> & H0 & _).
  destruct v0 as [| | | |l]; cbn [wt] in H0; try contradiction.
  assert (exists ns, l = map VNum ns) as [ns ->].
  { induction H0 as [|x l Hx Hl IH]; [exists []; reflexivity|]. destruct IH as [ns ->].
    destruct x; cbn [wt] in Hx; try contradiction. exists (n :: ns). reflexivity. }
  exists ns, rest. split; [reflexivity|]. eapply is_valid_list. reflexivity.
Qed.

(** ** Validators *)
Lemma wt_validator v : wt tValidator v -> exists x, v = validator_val x.
Proof.
  intros Hv. apply wt_class_inv in Hv. destruct Hv as (l & -> & Hl). split_wt.
  match goal with |- exists x, VSeq [VBytes ?p; VBytes ?w; VNum ?b; VBool ?s; VNum ?e; VNum ?a; VNum ?xe; VNum ?d] = _ =>
    exists {| pubkey := p; withdrawal_credentials := w; effective_balance := b; slashed := s;
              activation_eligibility_epoch := e; activation_epoch := a; exit_epoch := xe; withdrawable_epoch := d |} end.
  reflexivity.
Qed.
Lemma validator_preds v e : wt tValidator v -> exists x, v = validator_val x /\
  (is_active v e = true <-> active x e) /\
  (is_eligible_for_activation_queue v = true <-> eligible x) /\
  (validator_is_slashable v e = true <-> slashable x e).
Proof.
  intros Hv. destruct (wt_validator v Hv) as [x ->]. exists x. split; [reflexivity|].
  destruct x as [p w b s ae a ex d].
  unfold is_active, is_eligible_for_activation_queue, validator_is_slashable, active, eligible, slashable,
    v_activation_epoch, v_exit_epoch, v_activation_eligibility_epoch, v_effective_balance, v_slashed,
    v_withdrawable_epoch, FAR_FUTURE_EPOCH, MAX_EFFECTIVE_BALANCE.
  cbn [member validator_val nth num boolean pubkey withdrawal_credentials effective_balance slashed
       activation_eligibility_epoch activation_epoch exit_epoch withdrawable_epoch].
  change (32 * 10 ^ 9) with 32000000000. change (2 ^ 64 - 1) with 18446744073709551615.
  destruct s; cbn [negb andb]; lia.
Qed.
Lemma slashed_never v e : wt tValidator v -> v_slashed v = true -> validator_is_slashable v e = false.
Proof. intros _ Hs. unfold validator_is_slashable. rewrite Hs. reflexivity. Qed.
Lemma slashable_sound a b : is_slashable (att_val a) (att_val b) = true -> slashable_data a b.
Proof. intros S. right. apply is_slashable_eq. exact S. Qed.
Lemma fork_version_refuted : GENESIS_FORK_VERSION_minimal = [1; 0; 0; 0] /\
  GENESIS_FORK_VERSION_minimal <> [0; 0; 0; 1].
Proof. split; [reflexivity|discriminate]. Qed.
