(** Proofs of the theorems of ThmCodec.v. *)
From Coq Require Import ZArith String List Bool Lia Sorting.Sorted.
From Coq Require Import ZifyBool ZifyNat.
From Verif Require Import Base SpecSSZ SpecWire SpecPhase0 ModelSSZ ModelEth SpecObj SpecClasses Samples
  LemBase LemBits LemTy LemSer LemDes LemCodec LemCodecSeq LemCodecAll LemMatch LemWire LemHist LemCheck.
Import ListNotations.
Open Scope list_scope.
Open Scope Z_scope.
Ltac Zify.zify_post_hook ::= Z.div_mod_to_equations.

Lemma good_of t : wf t = true -> good false (vt t) (wt t).
Proof. intros. apply good_all; auto; discriminate. Qed.

Lemma round_trip t v old : wf t = true -> wt t v -> wt t old -> zlen (serialize t v) < 2 ^ 32 ->
  deserialize t old (serialize t v) = Ok (true, v).
Proof. intros Hwf Hv Ho Hl. exact (g_rt _ _ _ (good_of t Hwf) v old Hv Ho Hl). Qed.
Lemma round_trip_containers t v old : is_container t -> wt t v -> wt t old ->
  zlen (serialize t v) < 2 ^ 32 -> deserialize t old (serialize t v) = Ok (true, v).
Proof. intros Hc. apply round_trip. now apply is_container_wf. Qed.

Lemma conformance t s v : container_pair t s -> has_type s v -> serialize t v = ssz_serialize s v.
Proof.
  intros Hp Hv. pose proof (container_pair_matches _ _ Hp) as Hm.
  apply (matches_type t s v Hm) in Hv. apply matches_serialize; try tauto.
  now apply is_container_wf, container_pair_container with s.
Qed.
Lemma pairs_complete name s :
  (In (name, s) (phase0_containers preset_mainnet) -> exists t, In (name, t) (all_classes mainnet) /\ container_pair t s) /\
  (In (name, s) (phase0_containers preset_minimal) -> exists t, In (name, t) (all_classes minimal) /\ container_pair t s).
Proof.
  assert (G : forall (a : list (string * ty)) (b : list (string * sty)), map fst a = map fst b ->
    forall n s, In (n, s) b -> exists t, In (n, t) a).
  { clear. intros a b E n s Hin. apply (in_map fst) in Hin. rewrite <- E in Hin.
    apply in_map_iff in Hin as ([n' t] & E' & Hin). cbn in E'. subst. eauto. }
  split; intros Hin.
  - destruct (G (all_classes mainnet) (phase0_containers preset_mainnet) eq_refl name s Hin) as [t Ht].
    exists t. split; auto. eapply pair_mainnet; eauto.
  - destruct (G (all_classes minimal) (phase0_containers preset_minimal) eq_refl name s Hin) as [t Ht].
    exists t. split; auto. eapply pair_minimal; eauto.
Qed.

Lemma size t v : wf t = true -> wt t v -> get_ssz_size t <> 0 -> zlen (serialize t v) = get_ssz_size t.
Proof. intros Hwf. exact (g_len _ _ _ (good_of t Hwf) v). Qed.
Lemma size_containers t s : container_pair t s ->
  get_ssz_size t = sty_size s /\ (get_ssz_size t = 0 <-> is_variable s = true) /\
  (forall v, wt t v -> is_variable s = false -> zlen (serialize t v) = get_ssz_size t).
Proof.
  intros Hp. pose proof (container_pair_matches _ _ Hp) as Hm.
  pose proof (is_container_wf _ (container_pair_container _ _ Hp)) as Hwf.
  pose proof (matches_variable t Hwf s Hm) as Hv.
  split; [symmetry; now apply matches_size|]. split; [rewrite Hv; lia|].
  intros v Hw E. apply size; auto. rewrite E in Hv. lia.
Qed.

Lemma injective t v w : wf t = true -> wt t v -> wt t w -> zlen (serialize t v) < 2 ^ 32 ->
  serialize t v = serialize t w -> v = w.
Proof.
  intros Hwf Hv Hw Hl E. pose proof (round_trip t v v Hwf Hv Hv Hl) as R1.
  rewrite E in R1, Hl. rewrite (round_trip t w v Hwf Hw Hv Hl) in R1. congruence.
Qed.

Lemma canonical_prefix t old b v : wf t = true -> no_padding t = true -> wt t old -> bytes_ok b ->
  deserialize t old b = Ok (true, v) ->
  exists tail, b = serialize t v ++ tail /\ (tail <> [] -> get_ssz_size t <> 0 /\ zlen b > get_ssz_size t).
Proof.
  intros Hwf Hnp Ho Hb E. unfold deserialize, serialize, get_ssz_size in *.
  pose proof (canonical_all t Hwf Hnp old b v Ho Hb) as C.
  destruct (Z.eq_dec (vt_size (vt t)) 0) as [Hz|Hz].
  { exists []. rewrite app_nil_r. split; [symmetry; auto|easy]. }
  destruct (Z.eq_dec (zlen b) (vt_size (vt t))) as [Hl|Hl].
  { exists []. rewrite app_nil_r. split; [symmetry; auto|easy]. }
  destruct t as [n| | |n|n|t n|t n|t n|ci fs]; cbn [vt vt_size vt_des vt_ser] in *; try easy.
  - unfold bytes_deserialize in E. replace (zlen b =? n) with false in E by lia. discriminate.
  - rewrite slot_des_val in E. replace (zlen b =? 8) with false in E by lia. discriminate.
  - unfold boolean_deserialize in E. replace (zlen b =? 1) with false in E by lia. discriminate.
  - unfold bitvector_deserialize in E.
    replace (zlen b =? (n + BITS_PER_BYTE - 1) / BITS_PER_BYTE) with false in E by lia. discriminate.
  - unfold vector_deserialize in E. replace (zlen b =? n * vt_size (vt t)) with false in E by lia. discriminate.
  - apply wf_class in Hwf. destruct Hwf.
    assert (Gda : gooda false (map vt fs) (map wt fs)).
    { clear - cw_fields. induction cw_fields; cbn [map]; constructor; auto. apply good_of; auto. }
    assert (Hcan : Forall2 canonical (map vt fs) (map wt fs)).
    { cbn [no_padding] in Hnp. clear - cw_fields Hnp. induction cw_fields; cbn [map]; constructor;
        cbn [forallb] in Hnp; apply andb_true_iff in Hnp as [? ?]; auto. now apply canonical_all. }
    rewrite cw_size in Hz, Hl. destruct (existsb _ fs) eqn:Ex; [easy|].
    apply (class_W_wt ci fs) in Ho.
    assert (P : slice b 0 (vt_fixed (map vt fs)) = Ok (class_serialize ci (map vt fs) v)).
    { eapply (prefix_class false ci (map vt fs) (map wt fs)); eauto.
      - destruct fs; [easy|discriminate].
      - now rewrite map_length.
      - now rewrite map_length.
      - rewrite existsb_map, vt_fixed_fixed_size. fold get_ssz_size. unfold get_ssz_size in Ex. now rewrite Ex.
      - now rewrite vt_fixed_fixed_size.
      - rewrite existsb_map. exact Ex. }
    rewrite vt_fixed_fixed_size in P. pose proof (slice_inv _ _ _ _ P) as (Hi & Hj & Hs & _).
    exists (skipn (Z.to_nat (fixed_size fs)) b). split.
    + rewrite Hs. replace (Z.to_nat (fixed_size fs - 0)) with (Z.to_nat (fixed_size fs)) by lia.
      cbn [Z.to_nat skipn]. symmetry. apply firstn_skipn.
    + intros _. rewrite cw_size. split; auto. lia.
Qed.

Lemma fixed_exact_or_longer t : forall old b v, wf t = true -> wt t old -> bytes_ok b ->
  deserialize t old b = Ok (true, v) -> get_ssz_size t <= zlen b.
Proof.
  unfold deserialize, get_ssz_size. intros old b v Hwf Ho Hb E.
  destruct t as [n| | |n|n|t n|t n|t n|ci fs]; cbn [vt vt_size vt_des] in *; try (pose proof (zlen_nonneg b); lia).
  - unfold bytes_deserialize in E. destruct (Z.eqb_spec (zlen b) n); [lia|discriminate].
  - rewrite slot_des_val in E. destruct (Z.eqb_spec (zlen b) 8); [lia|discriminate].
  - unfold boolean_deserialize in E. destruct (Z.eqb_spec (zlen b) 1); [lia|discriminate].
  - unfold bitvector_deserialize in E.
    destruct (Z.eqb_spec (zlen b) ((n + BITS_PER_BYTE - 1) / BITS_PER_BYTE)); [lia|discriminate].
  - unfold vector_deserialize in E. destruct (Z.eqb_spec (zlen b) (n * vt_size (vt t))); [lia|discriminate].
  - apply wf_class in Hwf. destruct Hwf.
    assert (Gda : gooda false (map vt fs) (map wt fs)).
    { clear - cw_fields. induction cw_fields; cbn [map]; constructor; auto. apply good_of; auto. }
    apply (class_W_wt ci fs) in Ho. destruct old as [| | | |l0]; cbn [class_W] in Ho; try tauto.
    apply (class_des_true false ci (map vt fs) (map wt fs) Gda) in E; auto.
    + destruct E as (obj' & hi & rs & -> & Hr & _).
      apply ranges_fixed_part in Hr; [|rewrite map_map; clear - cw_fields; induction cw_fields; cbn [map]; constructor; auto;
                                        eapply g_size; apply good_of; auto|apply zlen_nonneg].
      rewrite !map_map in Hr. rewrite cw_size. destruct (existsb _ _); [pose proof (zlen_nonneg b); lia|].
      unfold fixed_size, get_ssz_size. cbn [Z.add] in Hr. exact Hr.
    + destruct fs; [easy|discriminate].
    + now rewrite map_length.
    + now rewrite vt_fixed_fixed_size.
    + pose proof (Forall2_len _ _ _ Ho) as L. rewrite !map_length in *. auto.
Qed.

Lemma no_ub t old b : wf t = true -> has_bitlist t = false -> wt t old -> bytes_ok b ->
  exists r v, deserialize t old b = Ok (r, v) /\ wt t v.
Proof.
  intros Hwf Hnb Ho Hb. pose proof (g_res _ _ _ (good_all t Hwf true (fun _ => Hnb)) old b Ho Hb) as R.
  unfold deserialize, res_ok in *. destruct (vt_des (vt t) old b) as [[r v]| |]; try easy. eauto.
Qed.
Lemma result_wt t old b r v : wf t = true -> wt t old -> bytes_ok b ->
  deserialize t old b = Ok (r, v) -> wt t v.
Proof. intros Hwf Ho Hb E. exact (good_pres _ _ _ _ _ _ _ (good_of t Hwf) Ho Hb E). Qed.
Lemma no_throw t old b : wf t = true -> wt t old -> bytes_ok b -> deserialize t old b <> Throw.
Proof.
  intros Hwf Ho Hb E. pose proof (g_res _ _ _ (good_of t Hwf) old b Ho Hb) as R.
  unfold deserialize, res_ok in *. now rewrite E in R.
Qed.

Lemma wt_default t : wf t = true -> wt t (default t).
Proof. intros Hwf. exact (g_def _ _ _ (good_of t Hwf)). Qed.

Lemma history t o1 o2 b : wf t = true -> wt t o1 -> wt t o2 -> bytes_ok b ->
  verdict (deserialize t o1 b) = verdict (deserialize t o2 b) /\
  (forall v, deserialize t o1 b = Ok (true, v) -> deserialize t o2 b = Ok (true, v)).
Proof.
  intros Hwf H1 H2 Hb. split.
  - exact (same_all t Hwf o1 o2 b H1 H2 Hb).
  - intros v. exact (g_hist _ _ _ (good_of t Hwf) o1 o2 b v H1 H2 Hb).
Qed.

Lemma leaf_unchanged t old b v : is_leaf t = true -> deserialize t old b = Ok (false, v) -> v = old.
Proof.
  unfold deserialize. destruct t; try discriminate; intros _; cbn [vt vt_des].
  - unfold bytes_deserialize. destruct (negb _); congruence.
  - rewrite slot_des_val. destruct (_ =? _); congruence.
  - rewrite boolean_des_val. destruct b as [|x [|y b]]; try congruence. destruct (x >? 1); congruence.
  - unfold bitvector_deserialize. destruct (negb _); [congruence|]. destruct old; congruence.
  - unfold bitlist_deserialize. destruct (_ =? _); [discriminate|]. cbv zeta. destruct (_ >? _); discriminate.
Qed.

Lemma acceptance t s old b v : wf t = true -> matches t s = true -> wt t old -> bytes_ok b ->
  (deserialize t old b = Ok (true, v) <-> accepts s b v).
Proof. intros Hwf Hm Ho Hb. exact (deserialize_accepts t Hwf s Hm old b v Ho Hb). Qed.
Lemma acceptance_containers t s old b v : container_pair t s -> wt t old -> bytes_ok b ->
  (deserialize t old b = Ok (true, v) <-> accepts s b v).
Proof.
  intros Hp. apply acceptance.
  - exact (is_container_wf _ (container_pair_container _ _ Hp)).
  - exact (container_pair_matches _ _ Hp).
Qed.
Lemma container_is_container t s : container_pair t s -> exists fs, s = SContainer fs.
Proof.
  intros [n _ Hin|n _ Hin].
  - assert (E : forallb (fun p => match snd p with SContainer _ => true | _ => false end)
                  (phase0_containers preset_mainnet) = true) by (vm_compute; reflexivity).
    rewrite forallb_forall in E. specialize (E _ Hin). cbn [snd] in E. destruct s; try discriminate. eauto.
  - assert (E : forallb (fun p => match snd p with SContainer _ => true | _ => false end)
                  (phase0_containers preset_minimal) = true) by (vm_compute; reflexivity).
    rewrite forallb_forall in E. specialize (E _ Hin). cbn [snd] in E. destruct s; try discriminate. eauto.
Qed.
Lemma structure t fs old b v : container_pair t (SContainer fs) -> wt t old -> bytes_ok b ->
  deserialize t old b = Ok (true, v) -> layout_ok (map (fun f => sty_size (snd f)) fs) b.
Proof.
  intros Hp Ho Hb E. apply (acceptance_containers _ _ old b v Hp Ho Hb) in E.
  destruct v; cbn [accepts] in E; tauto.
Qed.

(** *** Large encodings *)
Section Big.
Variable n : nat.
Hypothesis Hn : Z.of_nat n = 2 ^ 29.
Definition big_indexed : val :=
  VSeq [VSeq (repeat (VNum 0) n); smp_att_data 1 2; fill 96 3].
Definition big_slashing : val := VSeq [big_indexed; smp_indexed [5; 6] 1 2].

Lemma wt_big_indexed : wt (tIndexedAttestation mainnet) big_indexed.
Proof.
  unfold big_indexed. cbn [wt tIndexedAttestation all2]. split.
  - clear. induction n; cbn [repeat]; constructor; auto. cbn [wt]. lia.
  - split; [exact (wtb_wt tAttestationData (smp_att_data 1 2) eq_refl)|].
    split; [exact (wtb_wt (TBytes 96) (fill 96 3) eq_refl)|exact I].
Qed.
Lemma wt_big : wt (tAttesterSlashing mainnet) big_slashing.
Proof.
  unfold big_slashing, tAttesterSlashing. cbn [wt all2].
  split; [exact wt_big_indexed|]. split; [|exact I].
  exact (wtb_wt (tIndexedAttestation mainnet) (smp_indexed [5; 6] 1 2) eq_refl).
Qed.

Lemma class_series ci fs l : wf (TClass ci fs) = true -> wt (TClass ci fs) (VSeq l) ->
  serialize (TClass ci fs) (VSeq l) = ssz_series (class_es (map vt fs) l).
Proof.
  intros Hwf Hv. apply wf_class in Hwf. destruct Hwf.
  assert (Gda : gooda false (map vt fs) (map wt fs)).
  { clear - cw_fields. induction cw_fields; cbn [map]; constructor; auto. apply good_of; auto. }
  apply (class_W_wt ci fs) in Hv. cbn [class_W] in Hv.
  apply (class_ser_series false ci (map vt fs) (map wt fs) Gda); auto. now rewrite map_length.
Qed.

Lemma ser_zeros m : zlen (concat_serialize (vt TSlot) (VSeq (repeat (VNum 0) m))) = 8 * Z.of_nat m.
Proof.
  unfold concat_serialize. induction m; [reflexivity|]. cbn [repeat map concat]. rewrite zlen_app, IHm.
  change (zlen (vt_ser (vt TSlot) (VNum 0))) with 8. lia.
Qed.

Lemma zlen_big : zlen (serialize (tIndexedAttestation mainnet) big_indexed) = 2 ^ 32 + 228.
Proof.
  pose proof wt_big_indexed as Hw. unfold big_indexed in *.
  unfold tIndexedAttestation in *. rewrite class_series by (reflexivity || exact Hw). clear Hw.
  rewrite ssz_series_fx, zlen_app, zlen_fx. unfold class_es, es_of. cbn [map combine fst snd].
  rewrite !fixed_len_cons, !zlen_vr_cons.
  change (vt_size (vt (TListF TSlot (MAX_VALIDATORS_PER_COMMITTEE mainnet))) =? 0) with true.
  change (vt_size (vt tAttestationData) =? 0) with false. change (vt_size (vt (TBytes 96)) =? 0) with false.
  cbv iota. cbn [vt vt_ser]. fold (vt TSlot). rewrite ser_zeros, Hn.
  reflexivity.
Qed.

Lemma big_bytes : exists rest,
  serialize (tAttesterSlashing mainnet) big_slashing = [8; 0; 0; 0; 236; 0; 0; 0] ++ rest.
Proof.
  pose proof wt_big as Hw. pose proof zlen_big as Hz.
  unfold big_slashing in *. unfold tAttesterSlashing in *.
  rewrite class_series by (reflexivity || exact Hw). clear Hw.
  rewrite ssz_series_fx. unfold class_es, es_of. cbn [map combine fst snd].
  fold (serialize (tIndexedAttestation mainnet) big_indexed).
  change (vt_size (vt (tIndexedAttestation mainnet)) =? 0) with true.
  rewrite !fixed_len_cons. cbv iota. change (fixed_len []) with 0.
  cbn [fx]. rewrite Hz.
  replace (4 + (4 + 0) + (2 ^ 32 + 228)) with (236 + 1 * 2 ^ 32) by lia.
  rewrite <- (le_bytes4_u32 (236 + 1 * 2 ^ 32)). unfold u32. rewrite Z.mod_add by lia.
  change (le_bytes 4 (4 + (4 + 0))) with [8; 0; 0; 0]. change (le_bytes 4 (236 mod 2 ^ 32)) with [236; 0; 0; 0].
  rewrite <- !app_assoc. cbn [app]. eexists. reflexivity.
Qed.

Lemma big_not_round_trip old : wt (tAttesterSlashing mainnet) old ->
  deserialize (tAttesterSlashing mainnet) old (serialize (tAttesterSlashing mainnet) big_slashing)
  <> Ok (true, big_slashing).
Proof.
  intros Ho E. destruct big_bytes as [rest Hr].
  pose proof (g_ok _ _ _ (good_of (tAttesterSlashing mainnet) eq_refl) _ wt_big) as Hb.
  fold (serialize (tAttesterSlashing mainnet) big_slashing) in Hb.
  remember (serialize (tAttesterSlashing mainnet) big_slashing) as b eqn:Eb. clear Eb.
  unfold tAttesterSlashing in *.
  apply class_W_wt in Ho.
  destruct old as [| | | |l0]; cbn [class_W] in Ho; try tauto.
  unfold deserialize in E. cbn [vt vt_des] in E.
  apply class_des_true with (safe := false) (Ws := map wt [tIndexedAttestation mainnet; tIndexedAttestation mainnet]) in E;
    try reflexivity; auto.
  - destruct E as (obj' & hi & rs & E & Hra & Hd). injection E as <-.
    change (vt_fixed _) with (fixed_room [0; 0]) in Hra.
    change (map vt_size _) with [0; 0] in Hra.
    apply ranges_layout0 in Hra; auto; [|reflexivity|repeat constructor; lia].
    destruct Hra as (_ & -> & _). cbn [part_ranges Z.eqb offsets hd Z.add] in Hd.
    replace (u32_at b 0) with 8 in Hd by (rewrite Hr; reflexivity).
    replace (u32_at b 4) with 236 in Hd by (rewrite Hr; reflexivity).
    cbn [map] in *. destruct l0 as [|o1 l0]; [inversion Ho|]. inversion Ho; subst.
    cbn [decode_all] in Hd. destruct l0 as [|o2 l0]; [tauto|]. destruct Hd as [(s & Hs & Hds) _].
    pose proof (slice_bytes_ok _ _ _ _ Hb Hs) as Hsb.
    apply slice_inv in Hs as (_ & _ & _ & Hls). cbn [fst snd] in Hls.
    apply (canonical_all (tIndexedAttestation mainnet) eq_refl eq_refl o1 s big_indexed) in Hds; auto.
    apply (f_equal zlen) in Hds. fold (serialize (tIndexedAttestation mainnet) big_indexed) in Hds.
    rewrite zlen_big in Hds. lia.
  - cbn [map]. constructor; [apply good_of; reflexivity|]. constructor; [apply good_of; reflexivity|constructor].
  - easy.
  - pose proof (Forall2_len _ _ _ Ho) as L. rewrite !map_length in *. auto.
Qed.
End Big.
