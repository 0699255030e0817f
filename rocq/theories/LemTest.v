(** The test program on reference test vectors. *)
From Coq Require Import ZArith String List Bool Lia ZifyBool ZifyNat.
From Verif Require Import Base SpecSSZ ModelSSZ ModelBytes ModelHashTree ModelTree ModelYaml ModelPred ModelTest SpecText SpecObj ModelEth
  SpecPhase0 SpecClasses SpecTree SpecTest Samples SamplesYaml LemBase LemBits LemTy LemPred LemCheck LemThmCodec LemThmTree LemMatch LemYaml
  LemText LemDecode LemThmText LemBind LemBytes.
From Verif Require LemCodec.
Import ListNotations.
Open Scope string_scope.
Open Scope list_scope.
Open Scope Z_scope.

Lemma as_shown_value e t s v n : reads e -> container_pair t s -> has_type s v -> shows s v n ->
  as_T (yvt e t) n = Ok v.
Proof.
  intros He Hc Hv Hs. unfold as_T. destruct (pair_facts t s Hc) as (W & _ & M & N).
  assert (Wv : wt t v) by (apply (matches_type t s v M); exact Hv).
  assert (D : y_default (yvt e t) = vt_default (vt t)) by (destruct t; reflexivity). rewrite D.
  pose proof (shown_container e t s v (vt_default (vt t)) n He Hc Wv (wt_default t W) Hs) as E.
  unfold decode in E. rewrite E. reflexivity.
Qed.
Lemma root_shown e r n : zlen r = 32 -> shows sRoots (VSeq [VBytes r]) n ->
  exists m, yget n "root" = Ok m /\ as_T (yvt e (TBytes 32)) m = Ok (VBytes r).
Proof.
  intros Hl Hs. destruct n as [| |m]; try contradiction Hs. destruct Hs as [Hn [(m' & Hi & Hs) _]].
  exists m'. split; [cbn [yget]; now apply ymap_get_in|]. destruct m' as [str| |]; try contradiction Hs. cbn [shows] in Hs.
  unfold as_T. pose proof (bytes_shown e 32 r (y_default (yvt e (TBytes 32))) str Hl Hs) as E. unfold decode in E.
  rewrite E. reflexivity.
Qed.

Section Vector.
Variable e : externals.
Variable H : list Z -> list Z.
Variable t : ty.
Variable s : sty.
Variable v : val.
Hypothesis He : reads e.
Hypothesis Hlen : forall x, zlen x = 64 -> zlen (H x) = 32.
Hypothesis Hc : container_pair t s.
Hypothesis Hv : has_type s v.

Lemma spec_root_len : zlen (ssz_hash_tree_root H s v) = 32.
Proof.
  destruct (pair_facts t s Hc) as (W & _ & M & _). apply (root_len H Hlen); [|exact Hv].
  apply (matches_proper t W); [|exact M]. apply is_container_hashable, (container_pair_container t s Hc).
Qed.
(** The program, when value.yaml shows [v]. *)
Lemma test_value des uncompress value roots content m r : shows s v value ->
  yget roots "root" = Ok m -> as_T (yvt e (TBytes 32)) m = Ok (VBytes r) ->
  test_ssz e (hash_pairs H) t des uncompress value roots content =
  match uncompress content with
  | None => Throw
  | Some data =>
      if zlen data >? zlen (ssz_serialize s v) then UB
      else
        let output := data ++ repeat 0 (length (ssz_serialize s v) - length data) in
        let* (_, obj) := des (vt_default (vt t)) output in
        Ok (bytes_eqb (ssz_hash_tree_root H s v) r, op_eq t obj v, bytes_eqb (ssz_serialize s v) output)
  end.
Proof.
  clear Hlen. intros Hs G A. unfold test_ssz. rewrite (as_shown_value e t s v value He Hc Hv Hs). cbn [bind].
  rewrite (root_containers H t s v Hc Hv). cbn [bind]. rewrite G. cbn [bind]. rewrite A. cbn [bind].
  rewrite (conformance t s v Hc Hv). reflexivity.
Qed.
Lemma bytes_eqb_refl l : bytes_eqb l l = true.
Proof. apply bytes_eqb_eq. reflexivity. Qed.
Lemma value_typed : wt t v.
Proof. destruct (pair_facts t s Hc) as (_ & _ & M & _). apply (matches_type t s v M). exact Hv. Qed.

Lemma written_ok : bytes_ok (ssz_serialize s v).
Proof.
  rewrite <- (conformance t s v Hc Hv). apply (LemCodec.g_ok _ _ _ (good_of t (proj1 (pair_facts t s Hc))) v value_typed).
Qed.
Lemma vector_passes uncompress value roots content : shows s v value ->
  shows sRoots (VSeq [VBytes (ssz_hash_tree_root H s v)]) roots ->
  uncompress content = Some (ssz_serialize s v) -> zlen (ssz_serialize s v) < 2 ^ 32 ->
  test_ssz e (hash_pairs H) t (deserialize t) uncompress value roots content = Ok (true, true, true).
Proof.
  intros Hs Hr Hu Hz. destruct (root_shown e _ roots spec_root_len Hr) as (m & G & A).
  rewrite (test_value _ _ _ _ _ _ _ Hs G A), Hu. destruct (Z.gtb_spec (zlen (ssz_serialize s v)) (zlen (ssz_serialize s v))) as [C|_]; [lia|].
  rewrite Nat.sub_diag. cbn [repeat]. rewrite app_nil_r. cbn zeta.
  pose proof (conformance t s v Hc Hv) as Ec. rewrite <- Ec. rewrite <- Ec in Hz.
  destruct (pair_facts t s Hc) as (W & _).
  pose proof (round_trip_containers t v _ (container_pair_container t s Hc) value_typed (wt_default t W) Hz) as R.
  unfold Samples.default in R. rewrite R. clear R. cbn [bind].
  rewrite !bytes_eqb_refl, (op_eq_refl t v value_typed). reflexivity.
Qed.
(** A test that passes has compared the root, and the serialization up to zeros at its end. *)
Lemma vector_sound des uncompress value roots content r c : shows s v value ->
  shows sRoots (VSeq [VBytes r]) roots -> zlen r = 32 ->
  test_ssz e (hash_pairs H) t des uncompress value roots content = Ok (true, c, true) ->
  r = ssz_hash_tree_root H s v /\
  exists data k, uncompress content = Some data /\ ssz_serialize s v = data ++ repeat 0 k.
Proof.
  clear Hlen. intros Hs Hr Hl. destruct (root_shown e r roots Hl Hr) as (m & G & A).
  rewrite (test_value _ _ _ _ _ _ _ Hs G A). destruct (uncompress content) as [data|]; [|discriminate].
  destruct (_ >? _); [discriminate|]. cbn zeta.
  destruct (des _ _) as [[ok obj]| |]; cbn [bind]; try discriminate. intros E.
  destruct (bytes_eqb (ssz_hash_tree_root H s v) r) eqn:E1; [|discriminate E].
  destruct (bytes_eqb (ssz_serialize s v) _) eqn:E2; [|destruct (op_eq _ _ _); discriminate E].
  apply bytes_eqb_eq in E1. apply bytes_eqb_eq in E2. split; [congruence|]. exists data. eexists. split; [reflexivity|exact E2].
Qed.
Lemma vector_overflow des uncompress value roots content r data : shows s v value ->
  shows sRoots (VSeq [VBytes r]) roots -> zlen r = 32 ->
  uncompress content = Some data -> zlen (ssz_serialize s v) < zlen data ->
  test_ssz e (hash_pairs H) t des uncompress value roots content = UB.
Proof.
  clear Hlen. intros Hs Hr Hl Hu Hz. destruct (root_shown e r roots Hl Hr) as (m & G & A).
  rewrite (test_value _ _ _ _ _ _ _ Hs G A), Hu. destruct (Z.gtb_spec (zlen data) (zlen (ssz_serialize s v))); [reflexivity|lia].
Qed.
Lemma vector_short uncompress value roots content data k : shows s v value ->
  shows sRoots (VSeq [VBytes (ssz_hash_tree_root H s v)]) roots ->
  uncompress content = Some data -> ssz_serialize s v = data ++ repeat 0 k -> zlen (ssz_serialize s v) < 2 ^ 32 ->
  test_ssz e (hash_pairs H) t (deserialize t) uncompress value roots content = Ok (true, true, true).
Proof.
  intros Hs Hr Hu Hd Hz. destruct (root_shown e _ roots spec_root_len Hr) as (m & G & A).
  rewrite (test_value _ _ _ _ _ _ _ Hs G A), Hu.
  assert (L : length (ssz_serialize s v) = (length data + k)%nat) by (rewrite Hd, app_length, repeat_length; reflexivity).
  destruct (Z.gtb_spec (zlen data) (zlen (ssz_serialize s v))) as [C|_]; [unfold zlen in C; lia|].
  replace (length (ssz_serialize s v) - length data)%nat with k by lia. cbn zeta. rewrite <- Hd.
  pose proof (conformance t s v Hc Hv) as Ec. rewrite <- Ec. rewrite <- Ec in Hz.
  destruct (pair_facts t s Hc) as (W & _).
  pose proof (round_trip_containers t v _ (container_pair_container t s Hc) value_typed (wt_default t W) Hz) as R.
  unfold Samples.default in R. rewrite R. clear R. cbn [bind].
  rewrite !bytes_eqb_refl, (op_eq_refl t v value_typed). reflexivity.
Qed.
Lemma vector_any_deserialize c name des uncompress value roots content :
  In (name, t) (all_classes c) ->
  ~ In name ["BeaconState"; "Fork"; "BeaconBlockHeader"; "VoluntaryExit"; "SignedVoluntaryExit"] ->
  (forall old b, exists ok obj, des old b = Ok (ok, obj)) ->
  shows s v value -> shows sRoots (VSeq [VBytes (ssz_hash_tree_root H s v)]) roots ->
  uncompress content = Some (ssz_serialize s v) ->
  test_ssz e (hash_pairs H) t des uncompress value roots content = Ok (true, true, true).
Proof.
  intros Hin Hn Hd Hs Hr Hu. destruct (root_shown e _ roots spec_root_len Hr) as (m & G & A).
  rewrite (test_value _ _ _ _ _ _ _ Hs G A), Hu. destruct (Z.gtb_spec (zlen (ssz_serialize s v)) (zlen (ssz_serialize s v))) as [C|_]; [lia|].
  rewrite Nat.sub_diag. cbn [repeat]. rewrite app_nil_r. cbn zeta.
  destruct (Hd (vt_default (vt t)) (ssz_serialize s v)) as (ok & obj & ->). cbn [bind].
  rewrite !bytes_eqb_refl, (eq_always c name t obj v Hin Hn). reflexivity.
Qed.
Lemma vector_deserialized c name des uncompress value roots content r :
  In (name, t) (all_classes c) -> In name ["Fork"; "BeaconBlockHeader"; "VoluntaryExit"; "SignedVoluntaryExit"] ->
  (forall b ok obj, bytes_ok b -> des (vt_default (vt t)) b = Ok (ok, obj) -> wt t obj) ->
  shows s v value -> shows sRoots (VSeq [VBytes r]) roots -> zlen r = 32 ->
  test_ssz e (hash_pairs H) t des uncompress value roots content = Ok (true, true, true) ->
  exists ok, des (vt_default (vt t)) (ssz_serialize s v) = Ok (ok, v).
Proof.
  clear Hlen. intros Hin Hn Hd Hs Hr Hl. destruct (root_shown e r roots Hl Hr) as (m & G & A).
  rewrite (test_value _ _ _ _ _ _ _ Hs G A). destruct (uncompress content) as [data|]; [|discriminate].
  destruct (_ >? _); [discriminate|]. cbn zeta.
  destruct (des _ (data ++ _)) as [[ok obj]| |] eqn:D; cbn [bind]; try discriminate. intros E.
  destruct (bytes_eqb (ssz_hash_tree_root H s v) r); [|discriminate E].
  destruct (op_eq t obj v) eqn:E2; [|discriminate E].
  destruct (bytes_eqb (ssz_serialize s v) _) eqn:E3; [|discriminate E]. apply bytes_eqb_eq in E3. rewrite <- E3 in D.
  apply (eq_containers c name t obj v Hin Hn (Hd _ _ _ written_ok D) value_typed) in E2. subst obj. exists ok. exact D.
Qed.
End Vector.
