(** Facts about ModelYaml. *)
From Coq Require Import ZArith String List Bool Lia ZifyBool ZifyNat.
From Verif Require Import Base SpecSSZ ModelSSZ ModelBytes ModelYaml SpecYaml SpecBytes SpecObj ModelEth
  LemBase LemBits LemBytes LemTy LemPred LemThmCodec SpecClasses Samples SamplesYaml LemMatch.
Import ListNotations.
Open Scope string_scope.
Open Scope list_scope.
Open Scope Z_scope.

(** ** Maps *)
Lemma ymap_set_new l name x : ~ In name (map fst l) -> ymap_set l name x = l ++ [(name, x)].
Proof.
  induction l as [|[k y] l IH]; intros Hn; [reflexivity|]. cbn [ymap_set].
  destruct (String.eqb_spec k name) as [->|N]; [destruct Hn; left; reflexivity|].
  cbn [app]. rewrite IH; [reflexivity|]. intros Hi. apply Hn. right. exact Hi.
Qed.
Lemma encode_fold parts : forall l, NoDup (map fst l ++ map fst parts) ->
  fold_left (fun node (p : string * ynode) => ymap_set node (fst p) (snd p)) parts l = l ++ parts.
Proof.
  induction parts as [|[n x] parts IH]; intros l Hd; cbn [fold_left fst snd]; [symmetry; apply app_nil_r|].
  cbn [map fst] in Hd. rewrite ymap_set_new.
  - rewrite IH; rewrite <- ?app_assoc; [reflexivity|]. rewrite map_app, <- app_assoc. exact Hd.
  - intros Hi. apply NoDup_remove_2 in Hd. apply Hd, in_or_app. left. exact Hi.
Qed.
Lemma encode_eq parts : NoDup (map fst parts) -> encode_ parts = YMap parts.
Proof. intros Hd. unfold encode_. rewrite encode_fold; [reflexivity|exact Hd]. Qed.
Lemma ymap_get_in l name x : NoDup (map fst l) -> In (name, x) l -> ymap_get l name = Ok x.
Proof.
  induction l as [|[k y] l IH]; intros Hd Hi; [destruct Hi|]. cbn [ymap_get]. cbn [map fst] in Hd.
  apply NoDup_cons_iff in Hd. destruct Hd as [Hk Hd]. destruct Hi as [E|Hi].
  - injection E as -> ->. rewrite String.eqb_refl. reflexivity.
  - destruct (String.eqb_spec k name) as [->|N]; [|apply IH; auto].
    destruct Hk. apply (in_map fst) in Hi. exact Hi.
Qed.

(** ** Classes whose encode and decode lists are the members in order *)
Lemma parts_eqb_eq l : forall m, parts_eqb l m = true -> l = m.
Proof.
  induction l as [|[a i] l IH]; intros [|[b j] m] E; cbn [parts_eqb] in E; try discriminate; [reflexivity|].
  apply andb_true_iff in E. destruct E as [E Hl]. apply andb_true_iff in E. destruct E as [E1 E2].
  apply String.eqb_eq in E1. apply Nat.eqb_eq in E2. apply IH in Hl. congruence.
Qed.
Lemma nats_eqb_eq' l : forall m, nats_eqb l m = true -> l = m.
Proof.
  induction l as [|a l IH]; intros [|b m] E; cbn [nats_eqb] in E; try discriminate; [reflexivity|].
  apply andb_true_iff in E. destruct E as [E1 E2]. apply Nat.eqb_eq in E1. apply IH in E2. congruence.
Qed.
Lemma distinct_nodup l : distinct l = true -> NoDup l.
Proof.
  induction l as [|a l IH]; intros E; cbn [distinct] in E; constructor.
  - apply andb_true_iff in E. destruct E as [E _]. intros Hi. apply named_in in Hi. unfold named in Hi. rewrite Hi in E. discriminate.
  - apply IH. apply andb_true_iff in E. tauto.
Qed.

(** ** Round trip *)
Section Roundtrip.
Variable e : externals.
Hypothesis He : externals_ok e.

Definition back (t : ty) : Prop := forall v old, wt t v -> wt t old -> decode e t old (encode e t v) = Ok (true, v).

Lemma mapM_back t l : back t -> wt t (vt_default (vt t)) -> Forall (wt t) l ->
  mapM (as_T (yvt e t)) (map (y_encode (yvt e t)) l) = Ok l.
Proof.
  intros Hb Hd Hl. induction Hl as [|v l Hv Hl IH]; [reflexivity|]. cbn [map mapM]. unfold as_T at 1.
  assert (D : y_default (yvt e t) = vt_default (vt t)) by (destruct t; reflexivity). rewrite D.
  unfold back, decode, encode in Hb. rewrite (Hb v _ Hv Hd). cbn [bind]. rewrite IH. reflexivity.
Qed.

Definition pn (l : list val) (fs : list ty) (p : string * nat) : string * ynode :=
  (fst p, match nth_error (map (yvt e) fs) (snd p) with
          | Some q => y_encode q (nth (snd p) l (VNum 0))
          | None => YSeq []
          end).

(** The members from number [k] on are still to be decoded. *)
Lemma decode_back fs l parts0 : forall parts k obj,
  NoDup (map fst parts0) -> (forall p, In p parts -> In p parts0) ->
  Forall back fs -> all2 wt fs l ->
  map snd parts = seq k (length fs - k) -> (k <= length fs)%nat -> length obj = length l ->
  (forall i, (i < k)%nat -> nth i obj (VNum 0) = nth i l (VNum 0)) ->
  (forall i, (k <= i < length fs)%nat -> wt (nth i fs TSlot) (nth i obj (VNum 0))) ->
  decode_ (map (yvt e) fs) (YMap (map (pn l fs) parts0)) parts obj = Ok (true, l).
Proof.
  intros parts. induction parts as [|[name i] parts IH]; intros k obj Hd Hin Hb Hl Hs Hk Hlen Hdone Htodo.
  - cbn [map] in Hs. assert (length fs - k = 0)%nat by (destruct (length fs - k)%nat; [reflexivity|discriminate]).
    cbn [decode_]. do 2 f_equal. apply (nth_ext _ _ (VNum 0) (VNum 0)); [auto|]. intros j Hj. apply Hdone.
    assert (length fs = length l).
    { clear - Hl. revert l Hl. induction fs; intros [|? ?]; cbn [all2 length]; try contradiction; [auto|]. intros [_ H].
      f_equal. auto. }
    lia.
  - cbn [map snd] in Hs. assert (Hn : (length fs - k = S (length fs - S k))%nat).
    { destruct (length fs - k)%nat eqn:E; [discriminate|]. lia. }
    rewrite Hn in Hs. cbn [seq] in Hs. injection Hs as Hi Hs. subst i.
    cbn [decode_]. cbn [yget].
    rewrite (ymap_get_in _ name (snd (pn l fs (name, k)))).
    + cbn [bind]. unfold pn. cbn [fst snd].
      assert (Ene : nth_error (map (yvt e) fs) k = Some (yvt e (nth k fs TSlot))).
      { apply map_nth_error. apply nth_error_nth'. lia. }
      rewrite Ene.
      rewrite (nth_error_nth _ _ _ Ene). 
      rewrite Forall_forall in Hb. assert (Kf : (k < length fs)%nat) by lia.
      specialize (Hb (nth k fs TSlot) (nth_In fs TSlot Kf)) as Hbk.
      unfold back, decode, encode in Hbk.
      assert (Hwk : wt (nth k fs TSlot) (nth k l (VNum 0))).
      { clear - Hl Hk Hn. assert (K : (k < length fs)%nat) by lia. clear Hk Hn. revert k l Hl K.
        induction fs as [|f fs IH]; intros k [|v l]; cbn [all2 length]; try contradiction; [lia|].
        intros [Hv Hl] K. destruct k; cbn [nth]; [exact Hv|]. apply IH; [exact Hl|lia]. }
      rewrite Hbk; [|exact Hwk|apply Htodo; lia]. cbn [bind].
      apply (IH (S k)); auto.
      * intros p Hp. apply Hin. right. exact Hp.
      * apply Forall_forall. exact Hb.
      * rewrite upd_length. exact Hlen.
      * intros j Hj. destruct (Nat.eq_dec j k) as [->|N].
        -- apply nth_upd_eq. rewrite Hlen.
           assert (length fs = length l).
           { clear - Hl. revert l Hl. induction fs; intros [|? ?]; cbn [all2 length]; try contradiction; [auto|].
             intros [_ H]. f_equal. auto. }
           lia.
        -- rewrite nth_upd_neq by lia. apply Hdone. lia.
      * intros j Hj. rewrite nth_upd_neq by lia. apply Htodo. lia.
    + rewrite map_map. cbn [pn fst]. exact Hd.
    + assert (I : In (name, k) parts0) by (apply Hin; left; reflexivity).
      apply (in_map (pn l fs)) in I. exact I.
Qed.

Lemma wf_vector t n : wf (TVector t n) = true -> wf t = true.
Proof. cbn [wf]. destruct (wf t); [reflexivity|]. cbn [andb]. rewrite ?andb_false_r, ?andb_false_l. auto. Qed.
Lemma all2_length {A B} (P : A -> B -> Prop) l : forall m, all2 P l m -> length l = length m.
Proof. induction l; intros [|? ?]; cbn [all2 length]; try contradiction; [auto|]. intros [_ H]. f_equal. auto. Qed.
Lemma all2_nth {A B} (P : A -> B -> Prop) da db l : forall m i, all2 P l m -> (i < length l)%nat ->
  P (nth i l da) (nth i m db).
Proof.
  induction l as [|a l IH]; intros [|b m] i; cbn [all2 length]; try contradiction; [lia|].
  intros [Ha Hm] Hi. destruct i; cbn [nth]; [exact Ha|]. apply IH; [exact Hm|lia].
Qed.
Lemma back_all t : wf t = true -> yaml_wf t = true -> no_bits t = true -> back t.
Proof.
  induction t as [n| | |n|n|t n IH|t n IH|t n IH|ci fs IH] using ty_ind'; intros Hwf Hy Hb; try discriminate Hb;
    intros v old Hv Ho; unfold encode, decode; cbn [yvt y_encode y_decode].
  - destruct v; cbn [wt] in Hv; try contradiction. destruct Hv as [Hn Hl]. unfold bytes_decode.
    cbn [bytes_encode scalar_decode].
    replace (Z.to_nat n) with (length l) by (unfold zlen in Hn; lia).
    rewrite (bytes_back e He l Hl). reflexivity.
  - destruct v; cbn [wt] in Hv; try contradiction. unfold slot_decode.
    cbn [slot_encode scalar_decode]. rewrite (num_back e He _ Hv). reflexivity.
  - destruct v; cbn [wt] in Hv; try contradiction. unfold boolean_decode.
    cbn [boolean_encode scalar_decode]. rewrite (bool_back e He). reflexivity.
  - destruct v; cbn [wt] in Hv; try contradiction. destruct Hv as [Hn Hl].
    cbn [seq_encode array_decode]. rewrite zlen_map, Hn, Z.eqb_refl. cbn [negb].
    apply wf_vector in Hwf. rewrite mapM_back; [reflexivity| |apply (wt_default t Hwf)|exact Hl].
    apply IH; auto.
  - destruct v; cbn [wt] in Hv; try contradiction.
    cbn [seq_encode vec_decode].
    assert (Hw : wf t = true) by (cbn [wf] in Hwf; apply andb_true_iff in Hwf; tauto).
    rewrite mapM_back; [reflexivity| |apply (wt_default t Hw)|exact Hv].
    apply IH; auto.
  - destruct v; cbn [wt] in Hv; try contradiction.
    cbn [seq_encode vec_decode].
    assert (Hw : wf t = true) by (cbn [wf] in Hwf; first [apply andb_true_iff in Hwf; tauto|exact Hwf]).
    rewrite mapM_back; [reflexivity| |apply (wt_default t Hw)|exact Hv].
    apply IH; auto.
  - destruct v; cbn [wt] in Hv; try contradiction. destruct old; cbn [wt] in Ho; try contradiction.
    cbn [yaml_wf] in Hy. rewrite !andb_true_iff in Hy. destruct Hy as [[[He1 Hs] Hd] Hys].
    apply parts_eqb_eq in He1. apply nats_eqb_eq' in Hs. apply distinct_nodup in Hd.
    cbn [no_bits] in Hb.
    rewrite encode_eq by (rewrite map_map; exact Hd). rewrite <- He1.
    change (fun p : string * nat => _) with (pn l fs).
    rewrite (decode_back fs l (ci_enc ci) (ci_enc ci) 0 l0); [reflexivity|exact Hd|auto| |exact Hv| |lia| |lia|].
    + rewrite Forall_forall in IH |- *. intros t Ht. apply IH; [exact Ht| | |].
      * cbn [wf] in Hwf. repeat (apply andb_true_iff in Hwf; destruct Hwf as [Hwf ?]).
        match goal with H : forallb wf fs = true |- _ => rewrite forallb_forall in H; auto end.
      * rewrite forallb_forall in Hys. auto.
      * rewrite forallb_forall in Hb. auto.
    + rewrite Nat.sub_0_r. exact Hs.
    + rewrite <- (all2_length _ _ _ Hv). symmetry. apply (all2_length _ _ _ Ho).
    + intros i Hi. apply all2_nth; [exact Ho|lia].
Qed.
End Roundtrip.

(** ** Bits *)
Lemma hex_pairs_stream s : bytes_ok s ->
  match hex_pairs (flat_map (fun b => [48; b]) s) with
  | Ok hex => Forall2 (fun h b => b < 128 /\ h = nth (Z.to_nat b) table 0) hex s
  | Throw => False
  | UB => True
  end.
Proof.
  induction 1 as [|b s Hb Hs IH]; [constructor|]. cbn [flat_map app hex_pairs].
  change (hextoint 48) with (Ok 0). cbn [bind]. unfold hextoint. unfold byte_ok in Hb.
  destruct (Z.ltb_spec b 128) as [L|L]; [|rewrite andb_false_r; exact I].
  replace (0 <=? b) with true by lia. cbn [andb bind].
  destruct (hex_pairs _); cbn [bind]; [|exact IH|exact I].
  constructor; [|exact IH]. split; [exact L|].
  destruct (hextoint_total b ltac:(lia)) as (d & Ed & Hd & _). unfold hextoint in Ed.
  replace ((0 <=? b) && (b <? 128)) with true in Ed by lia. assert (d = nth (Z.to_nat b) table 0) by congruence; clear Ed; subst d.
  change (Z.shiftl 0 4) with 0. rewrite Z.add_0_l. apply Z.mod_small. lia.
Qed.
Lemma table_facts b : 0 <= b < 128 -> 0 <= nth (Z.to_nat b) table 0 < 16 /\ (b < 48 -> nth (Z.to_nat b) table 0 = 0).
Proof.
  intros Hb. destruct (hextoint_total b Hb) as (d & Ed & Hd & _ & Hn). unfold hextoint in Ed.
  replace ((0 <=? b) && (b <? 128)) with true in Ed by lia. assert (d = nth (Z.to_nat b) table 0) by congruence; clear Ed; subst d. split; [exact Hd|].
  intros L. apply Hn. unfold hex_digit. repeat match goal with |- context [if ?c then _ else _] => replace c with false by lia end.
  reflexivity.
Qed.
Lemma hex_ok hex s : bytes_ok s -> Forall2 (fun h b => b < 128 /\ h = nth (Z.to_nat b) table 0) hex s -> bytes_ok hex.
Proof.
  intros Hs F. induction F as [|h b hex s [Hb ->] F IH]; [apply Forall_nil|].
  inversion Hs as [|? ? Hb' Hs']; subst. constructor; [|apply IH; exact Hs'].
  unfold byte_ok in *. pose proof (table_facts b ltac:(lia)). lia.
Qed.
Lemma hex_same hex s : bytes_ok s -> Forall2 (fun h b => b < 128 /\ h = nth (Z.to_nat b) table 0) hex s ->
  hex = s -> Forall (eq 0) s.
Proof.
  intros Hs F E. revert E Hs. induction F as [|h b hex s [Hb Hh] F IH]; intros E Hs; [constructor|].
  injection E as -> ->. inversion Hs as [|? ? Hb' Hs']; subst. constructor; [|apply IH; auto].
  unfold byte_ok in *. pose proof (table_facts b ltac:(lia)). lia.
Qed.
Lemma prefix_stream s : prefix_0x (stream_bytes s) = true.
Proof. reflexivity. Qed.
Lemma stream_even s : zlen (stream_bytes s) mod 2 = 0.
Proof.
  unfold stream_bytes. rewrite !zlen_cons.
  assert (E : zlen (flat_map (fun b => [48; b]) s) = 2 * zlen s).
  { induction s; [reflexivity|]. cbn [flat_map]. rewrite zlen_app, IHs, !zlen_cons, zlen_nil. lia. }
  rewrite E. replace (1 + (1 + 2 * zlen s)) with ((1 + zlen s) * 2) by lia. apply Z.mod_mul. lia.
Qed.

Lemma bitlist_ser_ok l : bytes_ok (bitlist_serialize (VBits l)).
Proof. rewrite bitlist_serialize_le. apply le_bytes_ok. Qed.
Lemma all0_last s : Forall (eq 0) s -> List.last s 0 = 0.
Proof.
  induction 1 as [|x s Hx Hs IH]; [reflexivity|]. destruct s; [cbn; auto|exact IH].
Qed.
Lemma bitlist_never n e v old : wt (TBitlist n) v -> decode e (TBitlist n) old (encode e (TBitlist n) v) <> Ok (true, v).
Proof.
  intros Hv E. destruct v; cbn [wt] in Hv; try contradiction. unfold decode, encode in E.
  cbn [yvt y_encode y_decode] in E. unfold bitlist_decode, bitlist_encode, bitlist_to_string in E.
  cbn [scalar_decode] in E.
  unfold bitlist_from_hexstring in E. rewrite prefix_stream, stream_even in E. cbn [negb Z.eqb] in E.
  set (s := bitlist_serialize (VBits l)) in *.
  pose proof (bitlist_ser_ok l) as Hs. fold s in Hs. pose proof (hex_pairs_stream s Hs) as P.
  change (skipn 2 (stream_bytes s)) with (flat_map (fun b => [48; b]) s) in E.
  destruct (hex_pairs _) as [hex| |]; cbn [bind] in E; try discriminate.
  destruct (bitlist_deserialize old hex) as [[ok v']| |] eqn:D; cbn [bind] in E; try discriminate.
  assert (v' = VBits l) by congruence. subst v'.
  assert (ok = true).
  { unfold bitlist_deserialize in D. destruct (_ =? _); [discriminate|]. destruct (_ >? _); congruence. }
  subst ok. pose proof (hex_ok _ _ Hs P) as Hh.
  pose proof (bitlist_canonical old hex l Hh D) as C. fold s in C.
  assert (Z0 : Forall (eq 0) s) by (eapply hex_same; eauto).
  assert (U : bitlist_deserialize old hex = UB).
  { apply bitlist_deserialize_ub; [exact Hh|]. right. rewrite <- C. apply all0_last. exact Z0. }
  congruence.
Qed.

Lemma bits_vals_mod m x y : bits_of m x = bits_of m y -> x mod 2 ^ Z.of_nat m = y mod 2 ^ Z.of_nat m.
Proof. intros E. apply (f_equal bits_val) in E. rewrite !bits_val_of in E. exact E. Qed.
Lemma hex_zero : forall s hex n, bytes_ok s ->
  Forall2 (fun h b => b < 128 /\ h = nth (Z.to_nat b) table 0) hex s ->
  0 <= n -> le_val s < 2 ^ n -> le_val hex mod 2 ^ n = le_val s -> le_val s = 0.
Proof.
  intros s hex n Hs F. revert n. induction F as [|h b hex s [Hb Hh] F IH]; intros n Hn Hlt E; [reflexivity|].
  inversion Hs as [|? ? Hb' Hs']; subst. unfold byte_ok in Hb'. cbn [le_val] in *.
  set (h := nth (Z.to_nat b) table 0) in *. pose proof (table_facts b ltac:(lia)) as [Hh H48]. fold h in Hh, H48.
  pose proof (le_val_bound s Hs') as [Bs _]. pose proof (le_val_bound hex (hex_ok _ _ Hs' F)) as [Bh _].
  destruct (Z_lt_ge_dec n 8) as [L|L].
  - (* last byte *)
    assert (P : 2 ^ n <= 2 ^ 7) by (apply Z.pow_le_mono_r; lia). change (2 ^ 7) with 128 in P.
    assert (Es : le_val s = 0) by lia. rewrite Es in *.
    assert (Ev : exists q, 256 = 2 ^ n * q).
    { exists (2 ^ (8 - n)). rewrite <- Z.pow_add_r by lia. f_equal. change 256 with (2 ^ 8). f_equal. lia. }
    destruct Ev as [q Eq].
    assert (Em : (h + 256 * le_val hex) mod 2 ^ n = h mod 2 ^ n).
    { replace (h + 256 * le_val hex) with (h + (q * le_val hex) * 2 ^ n) by (rewrite Eq; ring).
      apply Z.mod_add. assert (0 < 2 ^ n) by (apply Z.pow_pos_nonneg; lia). lia. }
    rewrite Em in E. destruct (Z_lt_ge_dec b 48) as [Lb|Lb].
    + rewrite (H48 Lb) in E. rewrite Z.mod_0_l in E by (apply Z.pow_nonzero; lia). lia.
    + rewrite Z.mod_small in E by lia. lia.
  - replace n with (8 + (n - 8)) in Hlt, E by lia. rewrite Z.pow_add_r in Hlt, E by lia.
    change (2 ^ 8) with 256 in Hlt, E.
    assert (Hp : 0 < 2 ^ (n - 8)) by (apply Z.pow_pos_nonneg; lia).
    rewrite Z.rem_mul_r in E by lia.
    replace ((h + 256 * le_val hex) mod 256) with h in E
      by (symmetry; rewrite (Z.mul_comm 256), Z.mod_add by lia; apply Z.mod_small; lia).
    replace ((h + 256 * le_val hex) / 256) with (le_val hex) in E
      by (rewrite (Z.mul_comm 256), Z.div_add by lia; rewrite Z.div_small by lia; lia).
    assert (h = b /\ le_val hex mod 2 ^ (n - 8) = le_val s) as [E1 E2] by lia.
    rewrite (IH Hs' (n - 8)); [lia|lia|nia|exact E2].
Qed.
Lemma bits_val_0 l : bits_val l = 0 -> Forall (eq false) l.
Proof.
  induction l as [|b l IH]; intros E; constructor; cbn [bits_val] in E; pose proof (bits_val_bound l) as [B _];
    destruct b; cbn [b2z] in E; try lia; auto. apply IH. lia.
Qed.
Lemma bits_val_false l : Forall (eq false) l -> bits_val l = 0.
Proof. induction 1 as [|b l <- Hl IH]; [reflexivity|]. cbn [bits_val b2z]. rewrite IH. reflexivity. Qed.
Lemma flat_map_zero k : hex_pairs (flat_map (fun b => [48; b]) (repeat 0 k)) = Ok (repeat 0 k).
Proof.
  induction k; [reflexivity|]. cbn [repeat flat_map app hex_pairs]. change (hextoint 48) with (Ok 0).
  change (hextoint 0) with (Ok 0). cbn [bind]. rewrite IHk. reflexivity.
Qed.
Lemma le_bytes_0 n : le_bytes n 0 = repeat 0 n.
Proof. induction n; [reflexivity|]. cbn [le_bytes repeat]. change (0 mod 256) with 0. change (0 / 256) with 0. now rewrite IHn. Qed.
Lemma bitvector_iff n e l old : 0 <= n -> zlen l = n ->
  (decode e (TBitvector n) old (encode e (TBitvector n) (VBits l)) = Ok (true, VBits l) <-> Forall (eq false) l).
Proof.
  intros Hn Hl. unfold decode, encode. cbn [yvt y_encode y_decode].
  unfold bitvector_decode, bitvector_encode, bitvector_to_string. cbn [scalar_decode].
  unfold bitvector_from_hexstring. rewrite prefix_stream, stream_even. cbn [negb Z.eqb].
  rewrite bitvector_serialize_le by auto. set (s := le_bytes (Z.to_nat ((n + 7) / 8)) (bits_val l)).
  change (skipn 2 (stream_bytes s)) with (flat_map (fun b => [48; b]) s).
  assert (Hs : bytes_ok s) by apply le_bytes_ok.
  assert (Hv : le_val s = bits_val l).
  { unfold s. rewrite le_val_bytes. apply Z.mod_small. pose proof (bits_val_bound l) as B. split; [lia|].
    eapply Z.lt_le_trans; [apply B|]. rewrite pow2_8. apply Z.pow_le_mono_r; lia. }
  assert (Hls : zlen s = (n + 7) / 8) by (unfold s; rewrite zlen_le_bytes; lia).
  assert (Dv : forall hex, bytes_ok hex -> zlen hex = (n + 7) / 8 ->
     bv_outer n hex 0 (repeat false (Z.to_nat n)) = bits_of (Z.to_nat n) (le_val hex)).
  { intros hex Hh Hlh. pose proof (bitvector_deserialize_val n (repeat false (Z.to_nat n)) hex Hn) as V.
    rewrite zlen_repeat in V. specialize (V ltac:(lia) Hh Hlh). unfold bitvector_deserialize in V.
    destruct (negb _); [discriminate|]. congruence. }
  split.
  - intros E. pose proof (hex_pairs_stream s Hs) as P.
    destruct (hex_pairs _) as [hex| |]; cbn [bind] in E; try discriminate.
    pose proof (hex_ok _ _ Hs P) as Hh. rewrite Dv in E; [|exact Hh|].
    2:{ unfold zlen in *. rewrite (Forall2_len _ _ _ P). exact Hls. }
    assert (E' : bits_of (Z.to_nat n) (le_val hex) = l) by congruence.
    apply bits_val_0. rewrite <- Hv. apply (hex_zero s hex n); auto.
    + rewrite Hv. pose proof (bits_val_bound l). rewrite Hl in *. lia.
    + apply (f_equal bits_val) in E'. rewrite bits_val_of in E'. rewrite Z2Nat.id in E' by lia.
      rewrite E', Hv. reflexivity.
  - intros F. pose proof (bits_val_false l F) as B. unfold s. rewrite B, le_bytes_0, flat_map_zero. cbn [bind].
    rewrite Dv; [|apply bytes_ok_repeat0|rewrite zlen_repeat; lia]. rewrite le_val_repeat0. do 3 f_equal.
    replace (Z.to_nat n) with (length l) by (unfold zlen in Hl; lia). rewrite <- B. apply bits_of_val.
Qed.

(** ** Containers *)
Lemma yaml_containers e c name t v old : externals_ok e -> In (name, t) (all_classes c) -> wf t = true ->
  no_bits t = true -> wt t v -> wt t old -> decode e t old (encode e t v) = Ok (true, v).
Proof.
  intros He Hin Hwf Hb. apply back_all; auto.
  assert (F : forallb (fun x => yaml_wf (snd x)) (all_classes c) = true) by reflexivity.
  rewrite forallb_forall in F. exact (F _ Hin).
Qed.

(** Containers whose first member is a bitlist *)
Lemma decode_length ps node parts : forall obj ok l, decode_ ps node parts obj = Ok (ok, l) -> length l = length obj.
Proof.
  induction parts as [|[n i] parts IH]; intros obj ok l E; cbn [decode_] in E; [congruence|].
  destruct (yget node n); cbn [bind] in E; try discriminate.
  destruct (y_decode _ _ _) as [[k v']| |]; cbn [bind] in E; try discriminate. destruct k.
  - apply IH in E. rewrite upd_length in E. exact E.
  - assert (l = upd obj i v') by congruence. subst. apply upd_length.
Qed.
Lemma decode_keeps ps node parts i : ~ In i (map snd parts) -> forall obj ok l,
  decode_ ps node parts obj = Ok (ok, l) -> nth i l (VNum 0) = nth i obj (VNum 0).
Proof.
  induction parts as [|[n j] parts IH]; intros Hn obj ok l E; cbn [decode_] in E; [congruence|].
  cbn [map snd] in Hn. assert (Hij : j <> i) by (intros ->; apply Hn; left; reflexivity).
  destruct (yget node n); cbn [bind] in E; try discriminate.
  destruct (y_decode _ _ _) as [[k v']| |]; cbn [bind] in E; try discriminate. destruct k.
  - apply IH in E; [|intros Hi; apply Hn; right; exact Hi]. rewrite E. apply nth_upd_neq. exact Hij.
  - assert (l = upd obj j v') by congruence. subst. apply nth_upd_neq. exact Hij.
Qed.
Lemma first_bitlist_never e ci n fs name parts v old :
  ci_enc ci = (name, 0%nat) :: parts -> ci_dec ci = (name, 0%nat) :: parts ->
  ~ In 0%nat (map snd parts) -> NoDup (map fst (ci_enc ci)) ->
  wt (TClass ci (TBitlist n :: fs)) v -> wt (TClass ci (TBitlist n :: fs)) old ->
  decode e (TClass ci (TBitlist n :: fs)) old (encode e (TClass ci (TBitlist n :: fs)) v) <> Ok (true, v).
Proof.
  intros Ee Ed H0 Hd Hv Ho E. apply wt_class_inv in Hv, Ho.
  destruct Hv as (l & -> & Hl), Ho as (o & -> & Ho).
  apply all2_cons_inv in Hl, Ho. destruct Hl as (b & l' & -> & Hb & Hl), Ho as (ob & o' & -> & Hob & Ho).
  unfold decode, encode in E. cbn [yvt y_encode y_decode] in E. rewrite Ed, Ee in E. cbn [map fst snd] in E.
  rewrite encode_eq in E.
  2:{ cbn [map fst]. rewrite map_map. cbn [fst]. rewrite Ee in Hd. exact Hd. }
  cbn [decode_ yget ymap_get] in E. rewrite String.eqb_refl in E. cbn [bind nth nth_error] in E.
  match type of E with (bind (bind ?x _) _) = _ => destruct x as [[k v']| |] eqn:D end; cbn [bind] in E; try discriminate.
  destruct k; cbn [bind] in E; [|congruence].
  match type of E with (bind ?x _) = _ => destruct x as [[k r]| |] eqn:R end; cbn [bind] in E; try discriminate.
  assert (r = b :: l') by congruence. subst r.
  pose proof (decode_keeps _ _ _ 0%nat H0 _ _ _ R) as K. cbn [upd nth] in K. subst v'.
  exact (bitlist_never n e b ob Hb D).
Qed.
Lemma attestation_never e c v old : wt (tAttestation c) v -> wt (tAttestation c) old ->
  decode e (tAttestation c) old (encode e (tAttestation c) v) <> Ok (true, v).
Proof.
  eapply first_bitlist_never; [reflexivity|reflexivity| |].
  - cbn. intros [H|[H|[]]]; discriminate.
  - apply distinct_nodup. reflexivity.
Qed.
Lemma pending_never e c v old : wt (tPendingAttestation c) v -> wt (tPendingAttestation c) old ->
  decode e (tPendingAttestation c) old (encode e (tPendingAttestation c) v) <> Ok (true, v).
Proof.
  eapply first_bitlist_never; [reflexivity|reflexivity| |].
  - cbn. intros [H|[H|[H|[]]]]; discriminate.
  - apply distinct_nodup. reflexivity.
Qed.

(** ** The usual conversions *)
Lemma decimal_back fuel : forall n, 0 <= n < 10 ^ Z.of_nat fuel ->
  fold_left (fun a ch => 10 * a + (ch - 48)) (decimal fuel n) 0 = n.
Proof.
  induction fuel; intros n Hn; [change (10 ^ Z.of_nat 0) with 1 in Hn; cbn; lia|]. cbn [decimal].
  destruct (Z.ltb_spec n 10) as [L|L]; [cbn [fold_left]; lia|].
  rewrite fold_left_app. rewrite IHfuel.
  - cbn [fold_left]. pose proof (Z.div_mod n 10 ltac:(lia)). lia.
  - rewrite Nat2Z.inj_succ, Z.pow_succ_r in Hn by lia. split; [apply Z.div_pos; lia|].
    apply Z.div_lt_upper_bound; lia.
Qed.
Lemma std_externals_ok : externals_ok std_externals.
Proof.
  constructor.
  - intros x Hx. cbn [std_externals num_text text_num]. f_equal. apply decimal_back. 
    change (10 ^ Z.of_nat 20) with 100000000000000000000. change (2 ^ 64) with 18446744073709551616 in Hx. lia.
  - intros []; reflexivity.
  - intros l Hl. apply hex_text_parse. exact Hl.
Qed.
Lemma yaml_container e t v old : externals_ok e -> is_container t -> no_bits t = true -> wt t v -> wt t old ->
  decode e t old (encode e t v) = Ok (true, v).
Proof.
  intros He Hc Hb Hv Ho. pose proof (is_container_wf t Hc) as Hwf.
  destruct Hc as [name Hin|name Hin]; eapply yaml_containers; eauto.
Qed.
Lemma yaml_attestations_refuted e c t v old : t = tAttestation c \/ t = tPendingAttestation c ->
  wt t v -> wt t old -> decode e t old (encode e t v) <> Ok (true, v).
Proof. intros [->| ->]; [apply attestation_never|apply pending_never]. Qed.
