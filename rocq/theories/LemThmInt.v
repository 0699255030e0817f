(** Long bit lists, and long texts of bitvectors. *)
From Coq Require Import ZArith String List Bool Lia ZifyBool ZifyNat.
From Verif Require Import Base SpecSSZ SpecPhase0 ModelMath ModelHashTree ModelSSZ ModelBytes ModelTree ModelYaml ModelEth SpecObj SpecClasses SpecText
  SpecInt ModelInt Samples LemBase LemTy LemBits LemCodec LemCodecSeq LemCodecAll LemMatch LemCheck LemSer SpecSize LemBind LemThmCodec LemFit LemSize LemThmFit SpecYaml LemYaml LemText LemDecode LemLoose LemInt.
Import ListNotations.
Open Scope list_scope.
Open Scope Z_scope.

Ltac Zify.zify_post_hook ::= Z.to_euclidean_division_equations.

Section Long.
Variable n : nat.
Hypothesis Hn : Z.of_nat n = 2 ^ 31.
Definition long_attestation : val := VSeq [VBits (repeat true n); smp_att_data 1 2; fill 96 9].
Lemma wt_long : wt (tAttestation mainnet) long_attestation.
Proof.
  unfold long_attestation. cbn [wt tAttestation all2]. split; [exact I|].
  split; [exact (wtb_wt tAttestationData (smp_att_data 1 2) eq_refl)|].
  split; [exact (wtb_wt (TBytes 96) (fill 96 9) eq_refl)|exact I].
Qed.
Lemma bitlist_length l : zlen (bitlist_serialize (VBits l)) = zlen l / 8 + 1.
Proof.
  unfold bitlist_serialize, zlen. rewrite upd_length, pack_bits_length, repeat_length. lia.
Qed.
Lemma zlen_long : zlen (serialize (tAttestation mainnet) long_attestation) = 2 ^ 28 + 229.
Proof.
  pose proof wt_long as Hw. unfold long_attestation in *.
  unfold tAttestation in *. rewrite class_series by (reflexivity || exact Hw). clear Hw.
  rewrite ssz_series_fx, zlen_app, zlen_fx. unfold class_es, LemSer.es_of. cbn [map combine fst snd].
  rewrite !fixed_len_cons, !zlen_vr_cons.
  change (vt_size (vt (TBitlist _)) =? 0) with true.
  change (vt_size (vt tAttestationData) =? 0) with false. change (vt_size (vt (TBytes 96)) =? 0) with false.
  cbv iota. cbn [vt vt_ser]. rewrite bitlist_length, zlen_repeat, Hn. reflexivity.
Qed.
Lemma short_long : short_bits long_attestation = false.
Proof. unfold long_attestation. cbn [short_bits forallb]. unfold zlen. rewrite repeat_length, Hn. reflexivity. Qed.
Lemma long_undefined :
  let t := tAttestation mainnet in
  let b := serialize t long_attestation in
  bytes_ok b /\ zlen b = 2 ^ 28 + 229 /\
  deserialize t (default t) b = Ok (true, long_attestation) /\
  serialize_int t long_attestation = UB /\
  forall HB, hash_tree_root_int HB t long_attestation = UB.
Proof.
  intros t b. assert (W : wf t = true) by reflexivity. pose proof wt_long as V. pose proof zlen_long as L. fold t b in L.
  split; [exact (g_ok _ _ _ (good_of t W) _ V)|]. split; [exact L|]. split; [|split].
  - apply round_trip; [exact W|exact V|apply wtb_wt; reflexivity|fold b; lia].
  - rewrite (serialize_int_eq t W _ V), short_long. reflexivity.
  - intros HB. rewrite (root_int_eq HB t _ W V), short_long. reflexivity.
Qed.
End Long.

(** ** Objects without long bit lists *)
Lemma short_size s : forall v, shape s v -> zlen (ssz_serialize s v) < 2 ^ 28 -> short_bits v = true.
Proof.
  induction s using sty_ind'; intros v Hv Hl; destruct v; cbn [shape] in Hv; try contradiction; try reflexivity;
    cbn [ssz_serialize short_bits] in *.
  - rewrite le_len in Hl. unfold zlen in *. lia.
  - rewrite le_len in Hl. unfold zlen in *. lia.
  - destruct Hv as [_ Hv]. rewrite series_len, map_map in Hl.
    induction Hv as [|v l Hv Hr IH]; [reflexivity|]. cbn [map sumZ fold_right fst snd forallb] in *. unfold sumZ in IH.
    cbn [fst snd] in IH. pose proof (zlen_nonneg (ssz_serialize s v)).
    assert (N : 0 <= sumZ (map (fun x => (if is_variable s then 4 else 0) + zlen (ssz_serialize s x)) l)).
    { clear. induction l as [|x l IH]; [cbn; lia|]. cbn [map sumZ fold_right]. unfold sumZ in IH. pose proof (zlen_nonneg (ssz_serialize s x)). destruct (is_variable s); lia. }
    unfold sumZ in N. rewrite IHs, IH; [reflexivity| |exact Hv|]; destruct (is_variable s); lia.
  - rewrite series_len, map_map in Hl.
    induction Hv as [|v l Hv Hr IH]; [reflexivity|]. cbn [map sumZ fold_right fst snd forallb] in *. unfold sumZ in IH.
    cbn [fst snd] in IH. pose proof (zlen_nonneg (ssz_serialize s v)).
    assert (N : 0 <= sumZ (map (fun x => (if is_variable s then 4 else 0) + zlen (ssz_serialize s x)) l)).
    { clear. induction l as [|x l IH]; [cbn; lia|]. cbn [map sumZ fold_right]. unfold sumZ in IH. pose proof (zlen_nonneg (ssz_serialize s x)). destruct (is_variable s); lia. }
    unfold sumZ in N. rewrite IHs, IH; [reflexivity| |exact Hv|]; destruct (is_variable s); lia.
  - rewrite series_len in Hl. revert l Hv Hl. induction H as [|[name s] fs Hf _ IH]; intros [|v l] Hv Hl; try contradiction; [reflexivity|].
    destruct Hv as [Hv Hr]. cbn [map fold_right snd fst sumZ forallb] in *.
    pose proof (zlen_nonneg (ssz_serialize s v)).
    match type of Hl with _ + ?r < _ => assert (N : 0 <= r) end.
    { match goal with |- 0 <= fold_right _ _ (map _ ?es) => generalize es end. clear. intros es. induction es as [|[f x] es IH]; [cbn; lia|].
      cbn [map fold_right fst snd]. pose proof (zlen_nonneg x). destruct f; lia. }
    rewrite Hf, IH; [reflexivity|exact Hr| |exact Hv|].
    + unfold sumZ. destruct (is_variable s); lia.
    + destruct (is_variable s); lia.
Qed.
Fixpoint few_bits (s : sty) : bool :=
  match s with
  | SBitvector n | SBitlist n => n <? 2 ^ 31
  | SVector s' _ | SList s' _ => few_bits s'
  | SContainer fs => forallb (fun f => few_bits (snd f)) fs
  | _ => true
  end.
Lemma short_limit s : few_bits s = true -> forall v, has_type s v -> short_bits v = true.
Proof.
  induction s using sty_ind'; intros Hf v Hv; destruct v; cbn [has_type few_bits short_bits] in *; try contradiction; try reflexivity; try lia.
  - destruct Hv as [_ Hv]. apply forallb_forall. rewrite Forall_forall in Hv. auto.
  - destruct Hv as [_ Hv]. apply forallb_forall. rewrite Forall_forall in Hv. auto.
  - revert l Hv. induction H as [|[name s] fs Hx _ IH]; intros [|v l] Hv; try contradiction; [reflexivity|].
    destruct Hv as [Hv Hr]. cbn [forallb snd] in *. apply andb_true_iff in Hf as [F1 F2]. now rewrite Hx, IH.
Qed.
Lemma pair_few t s : container_pair t s -> few_bits s = true.
Proof.
  intros [n _ Hin|n _ Hin].
  - assert (E : forallb (fun p => few_bits (snd p)) (phase0_containers preset_mainnet) = true) by (vm_compute; reflexivity).
    rewrite forallb_forall in E. exact (E _ Hin).
  - assert (E : forallb (fun p => few_bits (snd p)) (phase0_containers preset_minimal) = true) by (vm_compute; reflexivity).
    rewrite forallb_forall in E. exact (E _ Hin).
Qed.
Lemma short_defined t v : wf t = true -> wt t v -> short_bits v = true ->
  serialize_int t v = Ok (serialize t v) /\ forall HB, hash_tree_root_int HB t v = hash_tree_root HB t v.
Proof.
  intros W V S. split; [rewrite (serialize_int_eq t W v V)|intros HB; rewrite (root_int_eq HB t v W V)]; now rewrite S.
Qed.
Lemma limits_defined t s v : container_pair t s -> has_type s v ->
  serialize_int t v = Ok (serialize t v) /\ forall HB, hash_tree_root_int HB t v = hash_tree_root HB t v.
Proof.
  intros Hp Hv. apply short_defined.
  - apply is_container_wf, (container_pair_container t s Hp).
  - apply (matches_type t s v (container_pair_matches t s Hp)) in Hv. tauto.
  - exact (short_limit s (pair_few t s Hp) v Hv).
Qed.
Lemma inputs_defined t s old b v : container_pair t s -> wt t old -> bytes_ok b -> zlen b < 2 ^ 28 ->
  deserialize t old b = Ok (true, v) ->
  serialize_int t v = Ok (serialize t v) /\ forall HB, hash_tree_root_int HB t v = hash_tree_root HB t v.
Proof.
  intros Hp Ho Hb Hl E. destruct (pair_solid t s Hp) as (W & M & _).
  pose proof (result_wt t old b true v W Ho Hb E) as Hv. apply short_defined; [exact W|exact Hv|].
  apply (short_size s); [now apply (matches_shape t)|]. rewrite <- (matches_serialize t W s v M Hv).
  destruct (accepted_size t s old b v Hp Ho Hb E) as (_ & B & _). lia.
Qed.

(** ** Texts of bitvectors *)
Lemma Forall_firstn {A} (P : A -> Prop) k l : Forall P l -> Forall P (firstn k l).
Proof. rewrite !Forall_forall. intros H x Hx. apply H. eapply In_firstn; eauto. Qed.
Lemma Forall_skipn {A} (P : A -> Prop) k l : Forall P l -> Forall P (skipn k l).
Proof. rewrite !Forall_forall. intros H x Hx. apply H. eapply In_skipn; eauto. Qed.
Lemma bv_int_app n b1 : forall b2 i arr, 0 <= i -> i + zlen b1 <= 2 ^ 29 ->
  bv_outer_int n (b1 ++ b2) i arr = bv_outer_int n b2 (i + zlen b1) (bv_outer n b1 i arr).
Proof.
  induction b1 as [|x b1 IH]; intros b2 i arr Hi Hl; cbn [app bv_outer_int bv_outer].
  - now rewrite Z.add_0_r.
  - rewrite zlen_cons in *. pose proof (zlen_nonneg b1). unfold int_add.
    replace (i + 1 >? 2 ^ 31 - 1) with false by lia. cbn [bind]. rewrite IH by lia.
    unfold u32. rewrite Z.mod_small by lia. replace (8 * i / 8) with i by lia. f_equal. lia.
Qed.
Lemma bv_int_wrap n b : forall i arr, 2 ^ 29 <= i -> i + zlen b <= 2 ^ 30 ->
  bv_outer_int n b i arr = Ok (bv_outer n b (i - 2 ^ 29) arr).
Proof.
  induction b as [|x b IH]; intros i arr Hi Hl; cbn [bv_outer_int bv_outer]; [reflexivity|].
  rewrite zlen_cons in *. pose proof (zlen_nonneg b). unfold int_add.
  replace (i + 1 >? 2 ^ 31 - 1) with false by lia. cbn [bind]. rewrite IH by lia.
  unfold u32. replace (8 * i) with (8 * (i - 2 ^ 29) + 1 * 2 ^ 32) by lia. rewrite Z.mod_add by lia.
  rewrite Z.mod_small by lia. replace (8 * (i - 2 ^ 29) / 8) with (i - 2 ^ 29) by lia. f_equal. f_equal. lia.
Qed.
Lemma hex_app a : forall b x y, hex_pairs a = Ok x -> hex_pairs b = Ok y -> hex_pairs (a ++ b) = Ok (x ++ y).
Proof.
  remember (length a) as n eqn:En. revert a En. induction n as [n IH] using lt_wf_ind. intros a En b x y Ha Hb.
  destruct a as [|p [|q a]]; [injection Ha as <-; exact Hb|discriminate|]. cbn [app hex_pairs] in *.
  apply bind_ok in Ha as (x1 & E1 & Ha). apply bind_ok in Ha as (x2 & E2 & Ha). apply bind_ok in Ha as (r & Er & Ha).
  rewrite E1, E2. cbn [bind]. cbn [length] in En. rewrite (IH (length a) ltac:(lia) a eq_refl b r y Er Hb). cbn [bind] in *.
  injection Ha as <-. reflexivity.
Qed.
Lemma hex_ascii s : Forall (fun ch => 0 <= ch < 128) s -> zlen s mod 2 = 0 -> exists h, hex_pairs s = Ok h.
Proof.
  remember (length s) as n eqn:En. revert s En. induction n as [n IH] using lt_wf_ind. intros s En Hs Hm.
  destruct s as [|p [|q s]]; [eexists; reflexivity|discriminate Hm|]. cbn [hex_pairs].
  inversion Hs as [|? ? P Hs']; subst. inversion Hs' as [|? ? Q Hs'']; subst.
  destruct (IH (length s) ltac:(cbn [length]; lia) s eq_refl Hs'') as [h E].
  { rewrite !zlen_cons in Hm. lia. }
  unfold hextoint. replace ((0 <=? p) && (p <? 128)) with true by lia. replace ((0 <=? q) && (q <? 128)) with true by lia.
  cbn [bind]. rewrite E. cbn [bind]. eexists. reflexivity.
Qed.
Lemma hex_skip s : forall k h, hex_pairs s = Ok h -> hex_pairs (skipn (2 * k) s) = Ok (skipn k h).
Proof.
  intros k. revert s. induction k as [|k IH]; intros s h E; [exact E|].
  replace (2 * S k)%nat with (S (S (2 * k))) by lia.
  destruct s as [|p [|q s]]; [injection E as <-; reflexivity|discriminate|]. cbn [hex_pairs] in E.
  apply bind_ok in E as (x1 & E1 & Ha). apply bind_ok in Ha as (x2 & E2 & Ha). apply bind_ok in Ha as (r & Er & Ha).
  injection Ha as <-. cbn [skipn]. now apply IH.
Qed.
Lemma hex_first s : forall k h, hex_pairs s = Ok h -> hex_pairs (firstn (2 * k) s) = Ok (firstn k h).
Proof.
  intros k. revert s. induction k as [|k IH]; intros s h E; [reflexivity|].
  replace (2 * S k)%nat with (S (S (2 * k))) by lia.
  destruct s as [|p [|q s]]; [injection E as <-; reflexivity|discriminate|]. cbn [hex_pairs] in E.
  apply bind_ok in E as (x1 & E1 & Ha). apply bind_ok in Ha as (x2 & E2 & Ha). apply bind_ok in Ha as (r & Er & Ha).
  injection Ha as <-. cbn [firstn hex_pairs]. rewrite E1, E2. cbn [bind]. rewrite (IH s r Er). reflexivity.
Qed.
Lemma bv_outer_app n b1 : forall b2 k arr, bv_outer n (b1 ++ b2) k arr = bv_outer n b2 (k + zlen b1) (bv_outer n b1 k arr).
Proof.
  induction b1 as [|x b1 IH]; intros b2 k arr; cbn [app bv_outer]; [now rewrite Z.add_0_r|].
  rewrite IH, zlen_cons. f_equal. lia.
Qed.
(** Writing the first bytes again overwrites them. *)
Lemma bv_over n b1 b2 arr : zlen arr = n -> bytes_ok b1 -> bytes_ok b2 -> zlen b2 <= zlen b1 ->
  bv_outer n b2 0 (bv_outer n b1 0 arr) = bv_outer n (b2 ++ skipn (length b2) b1) 0 arr.
Proof.
  intros Ha H1 H2 Hl.
  assert (H3 : bytes_ok (skipn (length b2) b1)) by (apply Forall_skipn; exact H1).
  apply nth_ext with (d := false) (d' := false); [now rewrite !bv_outer_length|].
  intros i Hi. rewrite !bv_outer_length in Hi.
  assert (L : zlen b1 = zlen b2 + zlen (skipn (length b2) b1)) by (unfold zlen in *; rewrite skipn_length; lia).
  rewrite (bv_outer_nth n b2); [|lia|unfold zlen in *; now rewrite bv_outer_length|now rewrite bv_outer_length|exact H2].
  rewrite bv_outer_nth; [|lia|exact Ha|exact Hi|exact H1].
  rewrite bv_outer_app. rewrite bv_outer_nth; [|pose proof (zlen_nonneg b2); lia|unfold zlen in *; now rewrite bv_outer_length|now rewrite bv_outer_length|exact H3].
  rewrite bv_outer_nth; [|lia|exact Ha|exact Hi|exact H2].
  pose proof (zlen_nonneg b2) as N2. pose proof (zlen_nonneg (skipn (length b2) b1)) as N3.
  destruct (Z.ltb_spec (Z.of_nat i) (8 * (0 + zlen b2))) as [A|A].
  - replace (8 * 0 <=? Z.of_nat i) with true by lia. cbn [andb].
    replace (8 * (0 + zlen b2) <=? Z.of_nat i) with false by lia. reflexivity.
  - rewrite andb_false_r. replace (8 * 0 <=? Z.of_nat i) with true by lia. cbn [andb].
    replace (8 * (0 + zlen b2) <=? Z.of_nat i) with true by lia. cbn [andb].
    replace (8 * (0 + zlen b1)) with (8 * (0 + zlen b2 + zlen (skipn (length b2) b1))) by lia.
    destruct (_ <? _) eqn:B; [|reflexivity].
    rewrite <- (firstn_skipn (length b2) b1) at 1. rewrite le_val_app.
    assert (F : zlen (firstn (length b2) b1) = zlen b2) by (unfold zlen in *; rewrite firstn_length; lia). rewrite F.
    pose proof (le_val_bound _ (Forall_firstn _ (length b2) _ H1)) as LB. rewrite F in LB. rewrite pow2_8 in *.
    set (lo := le_val (firstn _ _)) in *. set (hi := le_val (skipn _ _)) in *. clearbody lo hi.
    replace (Z.of_nat i - 8 * 0) with (Z.of_nat i - 8 * (0 + zlen b2) + 8 * zlen b2) by lia.
    rewrite <- Z.shiftr_spec by lia. rewrite Z.shiftr_div_pow2 by lia. f_equal.
    rewrite (Z.mul_comm _ hi), Z.div_add by lia. rewrite Z.div_small by lia. reflexivity.
Qed.

Lemma hex_text_spec s : hex_text s = prefix_0x s && (zlen s mod 2 =? 0).
Proof.
  destruct s as [|a [|b s]]; try reflexivity. cbn [hex_text prefix_0x]. f_equal.
  destruct (Z.eqb_spec (zlen (a :: b :: s) mod 2) 0) as [E|E].
  - apply Z.even_spec. exists (zlen (a :: b :: s) / 2). lia.
  - rewrite <- Z.negb_odd. apply negb_false_iff, Z.odd_spec. exists (zlen (a :: b :: s) / 2). lia.
Qed.
Definition wrap_at (k : nat) (s : list Z) : list Z :=
  firstn 2 s ++ skipn k (skipn 2 s) ++ skipn (length (skipn k (skipn 2 s))) (firstn k (skipn 2 s)).
Lemma bitvector_wrap e m n v s : Z.of_nat m = 2 ^ 29 -> 0 <= n -> Forall (fun ch => 0 <= ch < 128) s ->
  decode_int e (TBitvector n) v (YScalar s) =
  if hex_text s then if zlen s <? 2 ^ 31 then decode e (TBitvector n) v (YScalar (wrap_at (2 * m) s)) else UB else Throw.
Proof.
  intros Em Hn Hs. rewrite hex_text_spec. unfold decode_int, decode. cbn [yvt_int yvt y_decode]. unfold bitvector_decode. cbn [scalar_decode].
  unfold bitvector_from_hexstring_int, bitvector_from_hexstring.
  destruct (prefix_0x s) eqn:P; [|reflexivity]. cbn [negb andb].
  destruct (Z.eqb_spec (zlen s mod 2) 0) as [M|M]; [|reflexivity]. cbn [negb].
  pose proof (skip2 s P) as L2. pose proof (even_skip s P M) as E2.
  destruct (Z.ltb_spec (zlen s) (2 ^ 31)) as [B|B].
  2:{ rewrite hex_int_long; [reflexivity|lia|lia|]. unfold zlen. lia. }
  rewrite hex_int; [|exact E2|lia].
  destruct (hex_ascii (skipn 2 s)) as [h Hh]; [now apply Forall_skipn|unfold zlen; lia|].
  pose proof (hex_pairs_length _ _ Hh) as Lh. pose proof (hex_pairs_ok _ _ Hh) as Ok_h.
  rewrite Hh. cbn [bind].
  (* the text that is read instead *)
  set (h1 := firstn m h). set (h2 := skipn m h).
  pose proof (hex_first _ m _ Hh) as X1. pose proof (hex_skip _ m _ Hh) as X2. fold h1 in X1. fold h2 in X2.
  pose proof (hex_pairs_length _ _ X2) as L3.
  assert (W : wrap_at (2 * m) s = firstn 2 s ++ skipn (2 * m) (skipn 2 s) ++ skipn (2 * length h2) (firstn (2 * m) (skipn 2 s))).
  { unfold wrap_at. do 2 f_equal. f_equal. unfold zlen in L3. lia. }
  assert (D : skipn 2 (wrap_at (2 * m) s) = skipn (2 * m) (skipn 2 s) ++ skipn (2 * length h2) (firstn (2 * m) (skipn 2 s))).
  { rewrite W. destruct s as [|a [|b s]]; try discriminate P. reflexivity. }
  assert (PW : prefix_0x (wrap_at (2 * m) s) = true).
  { rewrite W. destruct s as [|a [|b s]]; try discriminate P. exact P. }
  pose proof (hex_skip _ (length h2) _ X1) as X3. pose proof (hex_app _ _ _ _ X2 X3) as X4. rewrite <- D in X4.
  pose proof (hex_pairs_length _ _ X4) as L4. pose proof (skip2 _ PW) as L5.
  rewrite PW. cbn [negb]. replace (zlen (wrap_at (2 * m) s) mod 2 =? 0) with true by lia. cbn [negb]. rewrite X4. cbn [bind].
  assert (L1 : zlen h1 <= 2 ^ 29) by (unfold h1, zlen; rewrite firstn_length; lia).
  assert (L6 : zlen h = zlen h1 + zlen h2) by (unfold h1, h2; rewrite <- zlen_app, firstn_skipn; reflexivity).
  rewrite <- (firstn_skipn m h). fold h1 h2. rewrite bv_int_app by lia. cbn [Z.add].
  destruct (Z.eq_dec (zlen h2) 0) as [Z2|Z2].
  - destruct h2; [|rewrite zlen_cons in Z2; pose proof (zlen_nonneg h2); lia]. reflexivity.
  - assert (F1 : zlen h1 = 2 ^ 29).
    { unfold h1, h2, zlen in *. rewrite firstn_length, skipn_length in *. lia. }
    rewrite F1, bv_int_wrap by lia. rewrite Z.sub_diag. cbn [bind]. rewrite bv_over; [reflexivity| | | |lia].
    + rewrite zlen_repeat. lia.
    + now apply Forall_firstn.
    + now apply Forall_skipn.
Qed.
Lemma bitvector_decode_int e n v s : 0 <= n -> Forall (fun ch => 0 <= ch < 128) s ->
  decode_int e (TBitvector n) v (YScalar s) =
  if hex_text s then if zlen s <? 2 ^ 31 then decode e (TBitvector n) v (YScalar (wrapped s)) else UB else Throw.
Proof.
  intros Hn Hs. assert (E : exists m, Z.of_nat m = 2 ^ 29 /\ Z.to_nat (2 ^ 30) = (2 * m)%nat).
  { exists (Z.to_nat (2 ^ 29)). split; [apply Z2Nat.id; discriminate|].
    change (2 ^ 30) with (2 * 2 ^ 29). now rewrite Z2Nat.inj_mul by discriminate. }
  destruct E as (m & Em & E). rewrite (bitvector_wrap e m n v s Em Hn Hs). unfold wrapped. rewrite E. reflexivity.
Qed.
Lemma bitlist_decode_text e limit v s :
  decode_int e (TBitlist limit) v (YScalar s) =
  if zlen s <? 2 ^ 31 then decode e (TBitlist limit) v (YScalar s) else if hex_text s then UB else Throw.
Proof. rewrite hex_text_spec. apply bitlist_decode_int. Qed.

(** ** All nodes *)
Lemma seven_bits s : forallb (fun ch => (0 <=? ch) && (ch <? 128)) s = true <-> Forall (fun ch => 0 <= ch < 128) s.
Proof. rewrite forallb_forall, Forall_forall. split; intros H x Hx; specialize (H x Hx); lia. Qed.
Lemma hex_never s : forall o, ~ Forall (fun ch => 0 <= ch < 128) s -> hex_pairs s = UB /\ hex_pairs_int s o = UB.
Proof.
  remember (length s) as n eqn:En. revert s En. induction n as [n IH] using lt_wf_ind. intros s En o Hs.
  destruct s as [|a [|b s]]; [destruct Hs; constructor|split; reflexivity|]. cbn [hex_pairs hex_pairs_int].
  unfold hextoint.
  destruct ((0 <=? a) && (a <? 128)) eqn:A; [|split; reflexivity].
  destruct ((0 <=? b) && (b <? 128)) eqn:B; [|split; reflexivity]. cbn [bind].
  assert (Hr : ~ Forall (fun ch => 0 <= ch < 128) s).
  { intros F. apply Hs. constructor; [lia|]. constructor; [lia|exact F]. }
  cbn [length] in En. destruct (IH (length s) ltac:(lia) s eq_refl (o + 2) Hr) as [I1 I2]. rewrite I1. split; [reflexivity|].
  unfold int_add. destruct (_ >? _); [reflexivity|]. cbn [bind]. now rewrite I2.
Qed.
Lemma text_bits s : prefix_0x s = true -> ~ Forall (fun ch => 0 <= ch < 128) s -> ~ Forall (fun ch => 0 <= ch < 128) (skipn 2 s).
Proof.
  intros P N F. apply N. destruct s as [|a [|b s]]; try discriminate P. cbn [prefix_0x] in P. cbn [skipn] in F.
  constructor; [lia|]. constructor; [lia|exact F].
Qed.
Lemma bitvector_narrow e n v s : 0 <= n ->
  decode_int e (TBitvector n) v (YScalar s) = decode e (TBitvector n) v (YScalar (narrow_bitvector s)).
Proof.
  intros Hn. unfold narrow_bitvector.
  destruct (forallb (fun ch => (0 <=? ch) && (ch <? 128)) s) eqn:A.
  - apply seven_bits in A. rewrite (bitvector_decode_int e n v s Hn A). rewrite andb_true_r.
    destruct (hex_text s) eqn:X; [destruct (_ <? _); reflexivity|].
    unfold decode. cbn [yvt y_decode]. unfold bitvector_decode. cbn [scalar_decode]. unfold bitvector_from_hexstring.
    rewrite hex_text_spec in X. destruct (prefix_0x s); [|reflexivity]. cbn [andb negb] in *. rewrite X. reflexivity.
  - rewrite andb_false_r. assert (N : ~ Forall (fun ch => 0 <= ch < 128) s) by (rewrite <- seven_bits; congruence).
    unfold decode_int, decode. cbn [yvt_int yvt y_decode]. unfold bitvector_decode. cbn [scalar_decode].
    unfold bitvector_from_hexstring_int, bitvector_from_hexstring. destruct (prefix_0x s) eqn:P; [|reflexivity]. cbn [negb].
    destruct (zlen s mod 2 =? 0); [|reflexivity]. cbn [negb].
    destruct (hex_never _ 2 (text_bits s P N)) as [-> ->]. reflexivity.
Qed.
Lemma bitlist_narrow e limit v s :
  decode_int e (TBitlist limit) v (YScalar s) = decode e (TBitlist limit) v (YScalar (narrow_bitlist s)).
Proof.
  rewrite bitlist_decode_text. unfold narrow_bitlist. destruct (Z.ltb_spec (zlen s) (2 ^ 31)) as [L|L].
  - replace (2 ^ 31 <=? zlen s) with false by lia. rewrite andb_false_r. reflexivity.
  - replace (2 ^ 31 <=? zlen s) with true by lia. rewrite andb_true_r. destruct (hex_text s) eqn:X; [reflexivity|].
    unfold decode. cbn [yvt y_decode]. unfold bitlist_decode. cbn [scalar_decode]. unfold bitlist_from_hexstring.
    rewrite hex_text_spec in X. destruct (prefix_0x s); [|reflexivity]. cbn [andb negb] in *. rewrite X. reflexivity.
Qed.
Definition narrow_at (fs : list (string * sty)) (p : string * ynode) : ynode :=
  (fix go (fs : list (string * sty)) : ynode :=
     match fs with
     | [] => snd p
     | (name, t') :: fs' => if String.eqb (fst p) name then narrow t' (snd p) else go fs'
     end) fs.
Lemma narrow_get fs m name s : NoDup (map fst fs) -> In (name, s) fs ->
  ymap_get (map (fun p => (fst p, narrow_at fs p)) m) name =
  match ymap_get m name with Ok n => Ok (narrow s n) | Throw => Throw | UB => UB end.
Proof.
  intros Hd Hi. induction m as [|[k y] m IH]; [reflexivity|]. cbn [map ymap_get fst].
  destruct (String.eqb_spec k name) as [->|N]; [|exact IH]. f_equal.
  clear IH m. induction fs as [|[g s'] fs IH]; [contradiction Hi|]. cbn [narrow_at fst snd].
  inversion Hd as [|? ? Hg Hd']; subst. destruct (String.eqb_spec name g) as [->|Ng].
  - destruct Hi as [E|Hi]; [congruence|]. destruct Hg. apply in_map_iff. exists (g, s). auto.
  - destruct Hi as [E|Hi]; [congruence|]. exact (IH Hd' Hi).
Qed.
Lemma narrow_parts e m all : NoDup (map fst all) -> forall gs ts ts0 obj, incl gs all ->
  Forall2 (fun t (f : string * sty) => forall v n, decode_int e t v n = decode e t v (narrow (snd f) n)) ts gs ->
  decode_ (map (yvt_int e) (ts0 ++ ts)) (YMap m) (combine (map fst gs) (seq (length ts0) (length gs))) obj =
  decode_ (map (yvt e) (ts0 ++ ts)) (YMap (map (fun p => (fst p, narrow_at all p)) m)) (combine (map fst gs) (seq (length ts0) (length gs))) obj.
Proof.
  intros Hd. induction gs as [|[name s] gs IH]; intros ts ts0 obj Hi Hx; [reflexivity|].
  inversion Hx as [|t ? ts' ? Ht Hx']; subst. cbn [map length seq combine decode_ fst yget].
  rewrite (narrow_get all m name s Hd) by (apply Hi; left; reflexivity).
  destruct (ymap_get m name) as [n| |]; [|reflexivity|reflexivity]. cbn [bind].
  rewrite !map_app, !app_nth2 by (rewrite map_length; lia). rewrite !map_length, Nat.sub_diag. cbn [map nth].
  cbn [snd] in Ht. unfold decode_int, decode in Ht. rewrite Ht.
  destruct (y_decode (yvt e t) _ _) as [[ok w]| |]; [|reflexivity|reflexivity]. cbn [bind]. destruct ok; [|reflexivity].
  specialize (IH ts' (ts0 ++ [t]) (upd obj (length ts0) w)). rewrite app_length in IH. cbn [length] in IH.
  replace (length ts0 + 1)%nat with (S (length ts0)) in IH by lia. rewrite <- !app_assoc in IH. cbn [app] in IH.
  rewrite !map_app in IH. cbn [map] in IH. apply IH; [|exact Hx']. intros x Hin. apply Hi. right. exact Hin.
Qed.
Lemma mapM_map2 {A B C} (f : A -> outcome C) (g : B -> outcome C) (h : A -> B) l :
  (forall a, f a = g (h a)) -> mapM f l = mapM g (map h l).
Proof. intros E. induction l as [|a l IH]; [reflexivity|]. cbn [map mapM]. now rewrite E, IH. Qed.
Lemma decode_narrow e t : wf t = true -> yaml_wf t = true -> forall s, matches t s = true -> same_names t s = true ->
  forall v n, decode_int e t v n = decode e t v (narrow s n).
Proof.
  induction t as [k| | |k|k|t k IH|t k IH|t k IH|ci fs IH] using ty_ind'; intros Hwf Hy s Hm Hs v n;
    destruct s; try discriminate Hm; cbn [matches same_names yaml_wf] in *; try reflexivity.
  - destruct n; try reflexivity. apply bitvector_narrow. cbn [wf] in Hwf. lia.
  - destruct n; try reflexivity. apply bitlist_narrow.
  - apply andb_true_iff in Hm. destruct Hm as [_ Hm]. apply wf_vector in Hwf. unfold decode_int, decode. cbn [yvt_int yvt y_decode narrow].
    destruct n; try reflexivity. unfold array_decode. unfold zlen. rewrite map_length. destruct (negb _); [reflexivity|].
    erewrite mapM_map2; [reflexivity|]. intros a. unfold as_T. rewrite default_int. specialize (IH Hwf Hy s Hm Hs (y_default (yvt e t)) a).
    unfold decode_int, decode in IH. now rewrite IH.
  - apply andb_true_iff in Hm. destruct Hm as [_ Hm]. apply wf_listf in Hwf. unfold decode_int, decode. cbn [yvt_int yvt y_decode narrow].
    destruct n; try reflexivity. unfold vec_decode.
    erewrite mapM_map2; [reflexivity|]. intros a. unfold as_T. rewrite default_int. specialize (IH Hwf Hy s Hm Hs (y_default (yvt e t)) a).
    unfold decode_int, decode in IH. now rewrite IH.
  - apply andb_true_iff in Hm. destruct Hm as [_ Hm]. apply wf_listv in Hwf. unfold decode_int, decode. cbn [yvt_int yvt y_decode narrow].
    destruct n; try reflexivity. unfold vec_decode.
    erewrite mapM_map2; [reflexivity|]. intros a. unfold as_T. rewrite default_int. specialize (IH Hwf Hy s Hm Hs (y_default (yvt e t)) a).
    unfold decode_int, decode in IH. now rewrite IH.
  - apply andb_true_iff in Hs. destruct Hs as [Hn Hs]. apply parts_eqb_eq in Hn.
    rewrite !andb_true_iff in Hy. destruct Hy as [[[He1 _] Hd] Hys]. apply parts_eqb_eq in He1. apply distinct_nodup in Hd.
    rewrite He1, Hn in Hd. apply wf_fields in Hwf. rewrite forallb_forall in Hys.
    assert (Nd : NoDup (map fst fields)).
    { assert (G : map fst (combine (map fst fields) (seq 0 (length fields))) = map fst fields); [|rewrite G in Hd; exact Hd].
      generalize 0%nat. clear. induction fields as [|f gs IH]; intros k; [reflexivity|]. cbn [map length seq combine fst]. now rewrite IH. }
    assert (Hx : Forall2 (fun t (f : string * sty) => forall v n, decode_int e t v n = decode e t v (narrow (snd f) n)) fs fields).
    { clear - IH Hwf Hys Hm Hs. revert fields Hm Hs. induction IH as [|t fs Ht _ IHf]; intros [|f gs] Hm Hs; try discriminate; constructor.
      - cbn [all2b] in Hm, Hs. apply andb_true_iff in Hm, Hs. apply Ht; [now apply Forall_inv in Hwf|apply Hys; left; reflexivity|tauto|tauto].
      - cbn [all2b] in Hm, Hs. apply andb_true_iff in Hm, Hs. apply IHf; [now apply Forall_inv_tail in Hwf|intros x Hi; apply Hys; right; exact Hi|tauto|tauto]. }
    unfold decode_int, decode. cbn [yvt_int yvt y_decode]. rewrite Hn. destruct v; try reflexivity.
    destruct n as [str|ns|m].
    1,2: destruct fields as [|[nm s'] gs]; reflexivity.
    change (narrow (SContainer fields) (YMap m)) with (YMap (map (fun p => (fst p, narrow_at fields p)) m)).
    pose proof (narrow_parts e m fields Nd fields fs [] l (incl_refl _) Hx) as E. cbn [app length] in E. rewrite E. reflexivity.
Qed.
Lemma container_narrow e t s v n : container_pair t s -> decode_int e t v n = decode e t v (narrow s n).
Proof.
  intros Hp. apply decode_narrow.
  - exact (is_container_wf _ (container_pair_container _ _ Hp)).
  - exact (is_container_yaml _ (container_pair_container _ _ Hp)).
  - now apply container_pair_matches.
  - now apply container_pair_names.
Qed.

(** A text of 2^29 zero bytes and a byte with four bits set *)
Section LongText.
Variable n : nat.
Hypothesis Hn : Z.of_nat n = 2 ^ 29.
Definition long_text : list Z := [48; 120] ++ repeat 48 (2 * n) ++ [48; 102].
Lemma hex_zeros k : hex_pairs (repeat 48 (2 * k)) = Ok (repeat 0 k).
Proof.
  induction k as [|k IH]; [reflexivity|]. replace (2 * S k)%nat with (S (S (2 * k))) by lia.
  cbn [repeat hex_pairs]. change (hextoint 48) with (Ok 0). cbn [bind]. rewrite IH. reflexivity.
Qed.
Lemma bv_zeros k : bv_outer 4 (repeat 0 k) 0 [false; false; false; false] = [false; false; false; false].
Proof.
  pose proof (bv_outer_val 4 (repeat 0 k)) as B. change (repeat false (Z.to_nat 4)) with [false; false; false; false] in B.
  rewrite B; [|lia|]. { rewrite le_val_repeat0. reflexivity. }
  apply Forall_forall. intros x Hx. apply repeat_spec in Hx. subst. unfold byte_ok. lia.
Qed.
Lemma long_hex : hex_pairs (repeat 48 (2 * n) ++ [48; 102]) = Ok (repeat 0 n ++ [15]).
Proof. apply hex_app; [apply hex_zeros|reflexivity]. Qed.
Lemma long_even : zlen long_text mod 2 = 0.
Proof. unfold long_text, zlen. rewrite !app_length, repeat_length. cbn [length]. lia. Qed.
Lemma long_zlen : zlen long_text = 2 ^ 30 + 4.
Proof. unfold long_text, zlen. rewrite !app_length, repeat_length. cbn [length]. lia. Qed.
Lemma long_wraps e v :
  Forall (fun ch => 0 <= ch < 128) long_text /\
  decode e (TBitvector 4) v (YScalar long_text) = Ok (true, VBits [false; false; false; false]) /\
  decode_int e (TBitvector 4) v (YScalar long_text) = Ok (true, VBits [true; true; true; true]).
Proof.
  pose proof long_even as E. pose proof long_zlen as L. pose proof long_hex as H.
  assert (Z1 : zlen (repeat 0 n) = 2 ^ 29) by (rewrite zlen_repeat; exact Hn).
  split; [|split].
  - unfold long_text. repeat rewrite Forall_app. repeat split; repeat constructor; try lia.
    apply Forall_forall. intros x Hx. apply repeat_spec in Hx. subst. lia.
  - unfold decode. cbn [yvt y_decode]. unfold bitvector_decode. cbn [scalar_decode]. unfold bitvector_from_hexstring.
    change (prefix_0x long_text) with true. cbn [negb]. rewrite E. cbn [Z.eqb negb].
    change (skipn 2 long_text) with (repeat 48 (2 * n) ++ [48; 102]). rewrite H. cbn [bind].
    change (repeat false (Z.to_nat 4)) with [false; false; false; false].
    rewrite bv_outer_app, bv_zeros, Z1. reflexivity.
  - unfold decode_int. cbn [yvt_int y_decode scalar_decode]. unfold bitvector_from_hexstring_int.
    change (prefix_0x long_text) with true. cbn [negb]. rewrite E. cbn [Z.eqb negb].
    rewrite hex_int; [|now apply even_skip|rewrite skip2 by reflexivity; lia].
    change (skipn 2 long_text) with (repeat 48 (2 * n) ++ [48; 102]). rewrite H. cbn [bind].
    change (repeat false (Z.to_nat 4)) with [false; false; false; false].
    rewrite bv_int_app by lia. rewrite bv_zeros, Z1. reflexivity.
Qed.
End LongText.
