(** decode() on nodes as in the test vectors. *)
From Coq Require Import ZArith String List Bool Lia ZifyBool ZifyNat.
From Verif Require Import Base SpecSSZ ModelSSZ ModelBytes ModelYaml SpecYaml SpecBytes SpecText SpecObj ModelEth
  SpecPhase0 SpecClasses LemBase LemBits LemBytes LemTy LemPred LemThmCodec LemMatch LemYaml.
Import ListNotations.
Open Scope list_scope.
Open Scope Z_scope.

(** ** Leaves *)
Lemma hex_pairs_bytes d : forall l, hex_bytes d = Some l -> hex_pairs d = Ok l.
Proof.
  induction d as [|a|a b r IH] using pair_ind; intros l Hl; cbn [hex_bytes] in Hl.
  - injection Hl as <-. reflexivity.
  - discriminate.
  - destruct (hex_digit a) as [x|] eqn:Ea; [|discriminate]. destruct (hex_digit b) as [y|] eqn:Eb; [|discriminate].
    destruct (hex_bytes r) as [l'|] eqn:Er; [|discriminate].
    assert (l = 16 * x + y :: l') by congruence. subst l. clear Hl.
    cbn [hex_pairs]. rewrite (hextoint_digit _ _ Ea), (hextoint_digit _ _ Eb). cbn [bind].
    rewrite (IH _ eq_refl). cbn [bind]. rewrite Z.shiftl_mul_pow2 by lia. change (2 ^ 4) with 16.
    pose proof (hex_digit_range _ _ Ea). pose proof (hex_digit_range _ _ Eb).
    rewrite Z.mod_small by lia. do 2 f_equal. lia.
Qed.
Lemma hex_string_shape str l : hex_string str l ->
  prefix_0x str = true /\ zlen str mod 2 = 0 /\ hex_pairs (skipn 2 str) = Ok l.
Proof.
  intros (d & -> & Hd). repeat split.
  - rewrite !zlen_cons, (hex_bytes_length _ _ Hd). replace (1 + (1 + 2 * zlen l)) with ((1 + zlen l) * 2) by lia.
    apply Z.mod_mul. lia.
  - change (skipn 2 (48 :: 120 :: d)) with d. now apply hex_pairs_bytes.
Qed.
Lemma bitvector_shown e n l old str : 0 <= n -> zlen l = n ->
  hex_string str (ssz_serialize (SBitvector n) (VBits l)) ->
  decode e (TBitvector n) old (YScalar str) = Ok (true, VBits l).
Proof.
  intros Hn Hl Hs. apply hex_string_shape in Hs. destruct Hs as (P & M & X).
  unfold decode. cbn [yvt y_decode]. unfold bitvector_decode. cbn [scalar_decode].
  unfold bitvector_from_hexstring. rewrite P, M, X. cbn [negb Z.eqb bind].
  pose proof (bitvector_roundtrip n (repeat false (Z.to_nat n)) l Hn) as V.
  rewrite zlen_repeat in V. specialize (V ltac:(lia) Hl). unfold bitvector_deserialize in V.
  rewrite bitvector_serialize_le in V by auto. destruct (negb _); [discriminate|].
  cbn [ssz_serialize]. congruence.
Qed.
Lemma bitlist_shown e n m l old str : hex_string str (ssz_serialize (SBitlist m) (VBits l)) ->
  decode e (TBitlist n) old (YScalar str) = Ok (true, VBits l).
Proof.
  intros Hs. apply hex_string_shape in Hs. destruct Hs as (P & M & X).
  unfold decode. cbn [yvt y_decode]. unfold bitlist_decode. cbn [scalar_decode].
  unfold bitlist_from_hexstring. rewrite P, M, X. cbn [negb Z.eqb bind].
  cbn [ssz_serialize]. rewrite <- bitlist_serialize_le, bitlist_roundtrip. reflexivity.
Qed.
Lemma bytes_shown e n l old str : zlen l = n -> hex_string str l ->
  decode e (TBytes n) old (YScalar str) = Ok (true, VBytes l).
Proof.
  intros Hl (d & -> & Hd). unfold decode. cbn [yvt y_decode]. unfold bytes_decode. cbn [scalar_decode].
  rewrite (hex_parse _ _ _ Hd) by (unfold zlen in *; lia).
  replace (Z.to_nat n - length l)%nat with 0%nat by (unfold zlen in *; lia). cbn [repeat bind].
  now rewrite app_nil_r.
Qed.

(** ** Classes and types with the same field names *)
Definition all_same_names (a : list (string * ty)) (b : list (string * sty)) : bool :=
  forallb (fun x => forallb (fun y => if String.eqb (fst x) (fst y) then same_names (snd x) (snd y) else true) b) a.
Lemma same_names_mainnet : all_same_names (all_classes mainnet) (phase0_containers preset_mainnet) = true.
Proof. vm_compute. reflexivity. Qed.
Lemma same_names_minimal : all_same_names (all_classes minimal) (phase0_containers preset_minimal) = true.
Proof. vm_compute. reflexivity. Qed.
Lemma all_same_names_in a b n t s : all_same_names a b = true -> In (n, t) a -> In (n, s) b -> same_names t s = true.
Proof.
  unfold all_same_names. rewrite forallb_forall. intros E Ha Hb. specialize (E _ Ha).
  rewrite forallb_forall in E. specialize (E _ Hb). cbn [fst snd] in E. now rewrite String.eqb_refl in E.
Qed.
Lemma container_pair_names t s : container_pair t s -> same_names t s = true.
Proof.
  intros [n H1 H2|n H1 H2].
  - exact (all_same_names_in _ _ n t s same_names_mainnet H1 H2).
  - exact (all_same_names_in _ _ n t s same_names_minimal H1 H2).
Qed.

(** ** Values *)
Lemma combine_names_in (gs : list (string * sty)) : forall k name i,
  In (name, i) (combine (map fst gs) (seq k (length gs))) ->
  (k <= i < k + length gs)%nat /\ fst (nth (i - k) gs (name, SUint64)) = name.
Proof.
  induction gs as [|g gs IH]; intros k name i Hi; [destruct Hi|].
  cbn [map length seq combine] in Hi. destruct Hi as [E|Hi].
  - injection E as <- <-. rewrite Nat.sub_diag. cbn [length nth]. split; [lia|reflexivity].
  - apply IH in Hi. destruct Hi as [B F]. cbn [length]. split; [lia|].
    replace (i - k)%nat with (S (i - S k)) by lia. exact F.
Qed.
Lemma combine_snd (gs : list (string * sty)) : map snd (combine (map fst gs) (seq 0 (length gs))) = seq 0 (length gs).
Proof.
  generalize 0%nat as k. induction gs as [|g gs IH]; intros k; [reflexivity|].
  cbn [map length seq combine snd]. now rewrite IH.
Qed.
(** What [shows] says of a container's fields, one by one. *)
Lemma shows_fields m gs : forall l,
  (fix go (fs : list (string * sty)) (l : list val) : Prop :=
     match fs, l with
     | [], [] => True
     | (name, s') :: fs', v' :: l' => (exists n', In (name, n') m /\ shows s' v' n') /\ go fs' l'
     | _, _ => False
     end) gs l ->
  length l = length gs /\
  forall i, (i < length gs)%nat -> exists n', In (fst (nth i gs (EmptyString, SUint64)), n') m /\
    shows (snd (nth i gs (EmptyString, SUint64))) (nth i l (VNum 0)) n'.
Proof.
  induction gs as [|[name s] gs IH]; intros [|v l] H; try contradiction; [split; [reflexivity|cbn [length]; lia]|].
  destruct H as [Hv H]. apply IH in H. destruct H as [Hl H]. split; [cbn [length]; lia|].
  intros [|i] Hi; cbn [nth fst snd]; [exact Hv|]. apply H. cbn [length] in Hi. lia.
Qed.

Section Shown.
Variable e : externals.

Lemma decode_parts fs l node : length l = length fs -> forall parts k obj,
  (forall p, In p parts -> exists n', yget node (fst p) = Ok n' /\
     forall o, wt (nth (snd p) fs TSlot) o -> decode e (nth (snd p) fs TSlot) o n' = Ok (true, nth (snd p) l (VNum 0))) ->
  map snd parts = seq k (length fs - k) -> (k <= length fs)%nat -> length obj = length l ->
  (forall i, (i < k)%nat -> nth i obj (VNum 0) = nth i l (VNum 0)) ->
  (forall i, (k <= i < length fs)%nat -> wt (nth i fs TSlot) (nth i obj (VNum 0))) ->
  decode_ (map (yvt e) fs) node parts obj = Ok (true, l).
Proof.
  intros Hl parts. induction parts as [|[name i] parts IH]; intros k obj Hp Hs Hk Hlen Hdone Htodo.
  - cbn [map] in Hs. assert (length fs - k = 0)%nat by (destruct (length fs - k)%nat; [reflexivity|discriminate]).
    cbn [decode_]. do 2 f_equal. apply (nth_ext _ _ (VNum 0) (VNum 0)); [auto|]. intros j Hj. apply Hdone. lia.
  - cbn [map snd] in Hs. assert (Hn : (length fs - k = S (length fs - S k))%nat).
    { destruct (length fs - k)%nat eqn:E; [discriminate|]. lia. }
    rewrite Hn in Hs. cbn [seq] in Hs. injection Hs as Hi Hs. subst i.
    destruct (Hp _ (or_introl eq_refl)) as (n' & En & Hd). cbn [fst snd] in En, Hd.
    cbn [decode_]. rewrite En. cbn [bind].
    assert (Ene : nth_error (map (yvt e) fs) k = Some (yvt e (nth k fs TSlot))).
    { apply map_nth_error. apply nth_error_nth'. lia. }
    rewrite (nth_error_nth _ _ _ Ene). unfold decode in Hd.
    assert (Kf : (k < length fs)%nat) by lia.
    rewrite Hd by (apply Htodo; lia). cbn [bind]. apply (IH (S k)); auto.
    + intros p Hi. apply Hp. right. exact Hi.
    + rewrite upd_length. exact Hlen.
    + intros j Hj. destruct (Nat.eq_dec j k) as [->|N]; [apply nth_upd_eq; lia|].
      rewrite nth_upd_neq by lia. apply Hdone. lia.
    + intros j Hj. rewrite nth_upd_neq by lia. apply Htodo. lia.
Qed.
Lemma as_shown t s : (forall v old n, wt t v -> wt t old -> shows s v n -> decode e t old n = Ok (true, v)) ->
  wf t = true -> forall l ns, Forall (wt t) l -> Forall2 (shows s) l ns -> mapM (as_T (yvt e t)) ns = Ok l.
Proof.
  intros Hd Hwf l ns Hl F. induction F as [|v n l ns Hv F IH]; [reflexivity|].
  inversion Hl as [|? ? Hw Hl']; subst. cbn [mapM]. unfold as_T at 1.
  assert (D : y_default (yvt e t) = vt_default (vt t)) by (destruct t; reflexivity). rewrite D.
  unfold decode in Hd. pose proof (Hd v _ n Hw (wt_default t Hwf) Hv) as E. unfold Samples.default in E. rewrite E. cbn [bind]. rewrite IH by auto. reflexivity.
Qed.

Hypothesis He : reads e.
Lemma shown t : wf t = true -> forall s, matches t s = true -> same_names t s = true ->
  forall v old n, wt t v -> wt t old -> shows s v n -> decode e t old n = Ok (true, v).
Proof.
  induction t as [n| | |n|n|t n IH|t n IH|t n IH|ci fs IH] using ty_ind'; intros Hwf s Hm Hs v old nd Hv Ho Hsh;
    destruct s; try discriminate Hm; destruct v; try contradiction Hv; destruct nd; try contradiction Hsh;
    cbn [matches same_names wt] in *.
  - apply bytes_shown; [tauto|exact Hsh].
  - unfold decode. cbn [yvt y_decode]. unfold slot_decode. cbn [scalar_decode].
    cbn [shows] in Hsh. rewrite (reads_number e He s n Hv Hsh). reflexivity.
  - unfold decode. cbn [yvt y_decode]. unfold boolean_decode. cbn [scalar_decode].
    cbn [shows] in Hsh. subst s. rewrite (reads_bool e He). reflexivity.
  - apply Z.eqb_eq in Hm. subst n0. apply bitvector_shown; [cbn [wf] in Hwf; lia|exact Hv|exact Hsh].
  - apply (bitlist_shown e n limit). exact Hsh.
  - apply andb_true_iff in Hm. destruct Hm as [_ Hm]. cbn [shows] in Hsh. destruct Hv as [Hn Hl].
    unfold decode. cbn [yvt y_decode array_decode].
    replace (zlen l0) with n by (rewrite <- Hn; unfold zlen; f_equal; apply (Forall2_len _ _ _ Hsh)).
    rewrite Z.eqb_refl. cbn [negb]. apply wf_vector in Hwf.
    rewrite (as_shown t s (IH Hwf s Hm Hs) Hwf l l0) by assumption. reflexivity.
  - apply andb_true_iff in Hm. destruct Hm as [_ Hm]. cbn [shows] in Hsh.
    unfold decode. cbn [yvt y_decode vec_decode].
    assert (Hw : wf t = true) by (cbn [wf] in Hwf; apply andb_true_iff in Hwf; tauto).
    rewrite (as_shown t s (IH Hw s Hm Hs) Hw l l0) by assumption. reflexivity.
  - apply andb_true_iff in Hm. destruct Hm as [_ Hm]. cbn [shows] in Hsh.
    unfold decode. cbn [yvt y_decode vec_decode].
    assert (Hw : wf t = true) by (cbn [wf] in Hwf; apply andb_true_iff in Hwf; tauto).
    rewrite (as_shown t s (IH Hw s Hm Hs) Hw l l0) by assumption. reflexivity.
  - destruct old; try contradiction Ho. apply andb_true_iff in Hs. destruct Hs as [Hn Hs].
    apply parts_eqb_eq in Hn. cbn [shows] in Hsh. destruct Hsh as [Hd Hsh].
    apply shows_fields in Hsh. destruct Hsh as [Hlen Hsh].
    apply all2b_Forall2 in Hm. apply all2b_Forall2 in Hs.
    pose proof (Forall2_len _ _ _ Hm) as Lfg.
    pose proof (all2_length _ _ _ Hv) as Lv. pose proof (all2_length _ _ _ Ho) as Lo.
    unfold decode. cbn [yvt y_decode]. rewrite Hn.
    rewrite (decode_parts fs l (YMap l0)) with (k := 0%nat); [reflexivity|lia| | |lia|lia|lia|].
    + intros [name i] Hi. cbn [fst snd yget]. apply combine_names_in in Hi. destruct Hi as [Bi En].
      rewrite Nat.sub_0_r in En.
      destruct (Hsh i ltac:(lia)) as (n' & Hin & Hn').
      rewrite (nth_indep _ (EmptyString, SUint64) (name, SUint64)) in Hin by lia. rewrite En in Hin.
      exists n'. split; [now apply ymap_get_in|]. intros o Hwo.
      assert (Ki : (i < length fs)%nat) by lia.
      rewrite Forall_forall in IH. pose proof (IH (nth i fs TSlot) (nth_In fs TSlot Ki)) as IHi.
      apply (IHi) with (s := snd (nth i fields (EmptyString, SUint64))); auto.
      * cbn [wf] in Hwf. repeat (apply andb_true_iff in Hwf; destruct Hwf as [Hwf ?]).
        match goal with H : forallb wf fs = true |- _ => rewrite forallb_forall in H; apply H, nth_In; lia end.
      * clear - Hm Ki. revert i Ki. induction Hm as [|a b x y Hab _ IHm]; intros i Ki; [cbn [length] in Ki; lia|].
        destruct i; cbn [nth]; [exact Hab|]. apply IHm. cbn [length] in Ki. lia.
      * clear - Hs Ki. revert i Ki. induction Hs as [|a b x y Hab _ IHm]; intros i Ki; [cbn [length] in Ki; lia|].
        destruct i; cbn [nth]; [exact Hab|]. apply IHm. cbn [length] in Ki. lia.
      * apply all2_nth; [exact Hv|lia].
    + rewrite combine_snd, Nat.sub_0_r. f_equal. lia.
    + intros i Hi. apply all2_nth; [exact Ho|lia].
Qed.
End Shown.
