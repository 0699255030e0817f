(** decode() on arbitrary nodes, exactly. *)
From Coq Require Import ZArith String List Bool Lia ZifyBool ZifyNat.
From Verif Require Import Base SpecSSZ ModelSSZ ModelBytes ModelYaml SpecYaml SpecBytes SpecText SpecLoose SpecObj ModelEth
  SpecPhase0 SpecClasses LemBase LemBits LemBytes LemTy LemPred LemThmCodec LemMatch LemYaml LemText LemDecode.
Import ListNotations.
Open Scope list_scope.
Open Scope Z_scope.
Ltac Zify.zify_post_hook ::= Z.div_mod_to_equations.

(** ** Characters *)
Lemma hextoint_counts ch x : hextoint ch = Ok x <-> counts_as ch x.
Proof.
  unfold counts_as, seven_bit. split.
  - intros E. assert (Hc : 0 <= ch < 128) by (unfold hextoint in E; destruct (_ && _) eqn:B; [lia|discriminate]).
    split; [exact Hc|]. destruct (hextoint_total ch Hc) as (d & Ed & _ & H1 & H2). assert (d = x) by congruence. subst.
    destruct (hex_digit ch) as [y|]; [left; f_equal; symmetry; now apply H1|right; auto].
  - intros [Hc Hx]. destruct (hextoint_total ch Hc) as (d & Ed & _ & H1 & H2). rewrite Ed. f_equal.
    destruct Hx as [Hx|[Hx ->]]; auto.
Qed.
Lemma hextoint_range ch x : hextoint ch = Ok x -> 0 <= x < 16.
Proof.
  intros E. assert (Hc : 0 <= ch < 128) by (unfold hextoint in E; destruct (_ && _) eqn:B; [lia|discriminate]).
  destruct (hextoint_total ch Hc) as (d & Ed & Hd & _). assert (d = x) by congruence. subst. exact Hd.
Qed.
Lemma hextoint_ub ch : hextoint ch = UB <-> ~ seven_bit ch.
Proof. unfold hextoint, seven_bit. destruct (_ && _) eqn:B; split; intros H; try lia; try discriminate; auto. Qed.
Lemma hextoint_cases ch : {x | hextoint ch = Ok x} + {hextoint ch = UB}.
Proof. unfold hextoint. destruct (_ && _); [left; eexists; reflexivity|right; reflexivity]. Qed.

Lemma hex_pairs_denotes d : forall h, hex_pairs d = Ok h <-> denotes d h /\ zlen d = 2 * zlen h.
Proof.
  induction d as [|a|a b d IH] using pair_ind; intros h; cbn [hex_pairs].
  - split.
    + intros E. assert (h = []) by congruence. subst. split; [constructor|reflexivity].
    + intros [D _]. inversion D. reflexivity.
  - split; [discriminate|]. intros [D L]. inversion D; subst. rewrite !zlen_cons, zlen_nil in L. lia.
  - split.
    + destruct (hextoint a) as [x| |] eqn:Ea; cbn [bind]; try discriminate.
      destruct (hextoint b) as [y| |] eqn:Eb; cbn [bind]; try discriminate.
      destruct (hex_pairs d) as [l| |]; cbn [bind]; try discriminate. intros E.
      destruct (proj1 (IH l) eq_refl) as [D L].
      pose proof (hextoint_range _ _ Ea). pose proof (hextoint_range _ _ Eb).
      assert (h = 16 * x + y :: l).
      { rewrite Z.shiftl_mul_pow2 in E by lia. change (2 ^ 4) with 16 in E. rewrite Z.mod_small in E by lia.
        replace (16 * x + y) with (x * 16 + y) by lia. congruence. }
      subst. split; [constructor; auto; now apply hextoint_counts|]. rewrite !zlen_cons. lia.
    + intros [D L]. inversion D as [| |? ? x y ? l Ha Hb D']; subst.
      apply hextoint_counts in Ha, Hb. rewrite Ha, Hb. cbn [bind].
      pose proof (hextoint_range _ _ Ha). pose proof (hextoint_range _ _ Hb).
      rewrite !zlen_cons in L. assert (E : hex_pairs d = Ok l) by (apply IH; split; [exact D'|lia]). rewrite E. cbn [bind].
      rewrite Z.shiftl_mul_pow2 by lia. change (2 ^ 4) with 16. rewrite Z.mod_small by lia. do 2 f_equal. lia.
Qed.
Lemma hex_pairs_ub d : zlen d mod 2 = 0 -> (hex_pairs d = UB <-> ~ Forall seven_bit d).
Proof.
  induction d as [|a|a b d IH] using pair_ind; intros M; cbn [hex_pairs].
  - split; [discriminate|]. intros N. destruct N. constructor.
  - rewrite zlen_cons, zlen_nil in M. discriminate.
  - rewrite !zlen_cons in M. assert (M' : zlen d mod 2 = 0) by lia. specialize (IH M'). clear M.
    destruct (hextoint_cases a) as [[x Ea]|Ea]; rewrite Ea; cbn [bind].
    2:{ split; [|reflexivity]. intros _ F. apply Forall_inv in F. apply hextoint_ub in Ea. exact (Ea F). }
    destruct (hextoint_cases b) as [[y Eb]|Eb]; rewrite Eb; cbn [bind].
    2:{ split; [|reflexivity]. intros _ F. apply Forall_inv_tail, Forall_inv in F. apply hextoint_ub in Eb. exact (Eb F). }
    apply hextoint_counts in Ea, Eb. destruct Ea as [Ha _], Eb as [Hb _].
    transitivity (hex_pairs d = UB); [destruct (hex_pairs d); cbn [bind]; split; congruence|]. rewrite IH.
    split; intros N F; apply N; [now apply Forall_inv_tail, Forall_inv_tail in F|]. constructor; [exact Ha|constructor; [exact Hb|exact F]].
Qed.
Lemma hex_pairs_ok d h : hex_pairs d = Ok h -> bytes_ok h.
Proof.
  revert h. induction d as [|a|a b d IH] using pair_ind; intros h; cbn [hex_pairs]; intros E; try discriminate.
  - assert (h = []) by congruence. subst. constructor.
  - destruct (hextoint a); cbn [bind] in E; try discriminate. destruct (hextoint b); cbn [bind] in E; try discriminate.
    destruct (hex_pairs d); cbn [bind] in E; try discriminate. injection E as <-. constructor; [|now apply IH].
    unfold byte_ok. apply Z.mod_pos_bound. lia.
Qed.

(** ** Byte vectors *)
Lemma from_str_exact s : forall pre n, zlen s <= 2 * Z.of_nat n ->
  (forall r, bytes_from_str_loop s (length pre) (pre ++ repeat 0 n) = Ok r <->
     exists l, denotes s l /\ r = pre ++ l ++ repeat 0 (n - length l)) /\
  (bytes_from_str_loop s (length pre) (pre ++ repeat 0 n) = UB <-> ~ Forall seven_bit s).
Proof.
  induction s as [|a|a b d IH] using pair_ind; intros pre n Hn; cbn [bytes_from_str_loop].
  - split.
    + intros r. split.
      * intros E. exists []. split; [constructor|]. cbn [length app]. rewrite Nat.sub_0_r. congruence.
      * intros (l & D & ->). inversion D. cbn [length app]. now rewrite Nat.sub_0_r.
    + split; [discriminate|]. intros N. destruct N. constructor.
  - rewrite zlen_cons, zlen_nil in Hn. destruct n as [|n]; [lia|].
    replace (length pre <? length (pre ++ repeat 0%Z (S n)))%nat with true
      by (symmetry; apply Nat.ltb_lt; rewrite app_length, repeat_length; lia).
    destruct (hextoint_cases a) as [[x Ea]|Ea].
    + rewrite (chars_to_byte1 a x Ea (hextoint_range _ _ Ea)). cbn [bind]. rewrite upd_fill. apply hextoint_counts in Ea. split.
      * intros r. split.
        -- intros E. exists [x]. split; [now constructor|]. cbn [length Nat.sub app]. rewrite Nat.sub_0_r, <- app_assoc in *. cbn [app] in E. congruence.
        -- intros (l & D & ->). inversion D as [|? y Hy|]; subst. apply hextoint_counts in Ea, Hy.
           assert (x = y) by congruence. subst. cbn [length Nat.sub app]. rewrite Nat.sub_0_r, <- app_assoc. reflexivity.
      * split; [discriminate|]. intros N. destruct N. constructor; [apply Ea|constructor].
    + assert (U : chars_to_byte [a] = UB) by (unfold chars_to_byte, strhex2int; cbn [rev app strhex2int_loop]; now rewrite Ea).
      rewrite U. cbn [bind]. apply hextoint_ub in Ea. split.
      * intros r. split; [discriminate|]. intros (l & D & _). inversion D as [|? y [Hy _]|]; subst. contradiction.
      * split; [|reflexivity]. intros _ F. apply Forall_inv in F. auto.
  - rewrite !zlen_cons in Hn. pose proof (zlen_nonneg d). destruct n as [|n]; [lia|].
    replace (length pre <? length (pre ++ repeat 0%Z (S n)))%nat with true
      by (symmetry; apply Nat.ltb_lt; rewrite app_length, repeat_length; lia).
    assert (U : hextoint a = UB \/ hextoint b = UB -> chars_to_byte [a; b] = UB).
    { intros [E|E]; unfold chars_to_byte, strhex2int; cbn [rev app strhex2int_loop].
      - destruct (hextoint_cases b) as [[y Eb]|Eb]; rewrite Eb; cbn [bind]; [rewrite E|]; reflexivity.
      - rewrite E. reflexivity. }
    destruct (hextoint_cases a) as [[x Ea]|Ea].
    2:{ rewrite U by auto. cbn [bind]. apply hextoint_ub in Ea. split.
        - intros r. split; [discriminate|]. intros (l & D & _). inversion D as [| |? ? ? ? ? ? [Hy _]]; subst. contradiction.
        - split; [|reflexivity]. intros _ F. apply Forall_inv in F. auto. }
    destruct (hextoint_cases b) as [[y Eb]|Eb].
    2:{ rewrite U by auto. cbn [bind]. apply hextoint_ub in Eb. split.
        - intros r. split; [discriminate|]. intros (l & D & _). inversion D as [| |? ? ? ? ? ? _ [Hy _]]; subst. contradiction.
        - split; [|reflexivity]. intros _ F. apply Forall_inv_tail, Forall_inv in F. auto. }
    rewrite (chars_to_byte2 a b x y Ea Eb (hextoint_range _ _ Ea) (hextoint_range _ _ Eb)). cbn [bind]. rewrite upd_fill.
    specialize (IH (pre ++ [16 * x + y]) n ltac:(lia)). rewrite app_length in IH. cbn [length] in IH.
    replace (length pre + 1)%nat with (S (length pre)) in IH by lia. destruct IH as [IH1 IH2].
    apply hextoint_counts in Ea, Eb. split.
    + intros r. rewrite IH1. split.
      * intros (l & D & ->). exists (16 * x + y :: l). split; [now constructor|]. cbn [length Nat.sub]. rewrite <- app_assoc. reflexivity.
      * intros (l & D & ->). inversion D as [| |? ? x' y' ? l' Ha Hb D']; subst.
        apply hextoint_counts in Ea, Eb, Ha, Hb. assert (x = x') by congruence. assert (y = y') by congruence. subst.
        exists l'. split; [exact D'|]. cbn [length Nat.sub]. rewrite <- app_assoc. reflexivity.
    + rewrite IH2. destruct Ea as [Ha _], Eb as [Hb _].
      split; intros N F; apply N; [now apply Forall_inv_tail, Forall_inv_tail in F|]. constructor; [exact Ha|constructor; [exact Hb|exact F]].
Qed.

Section Exact.
Variable e : externals.
Definition exactly (t : ty) (s : sty) : Prop := forall old n, wt t old ->
  (forall v, decode e t old n = Ok (true, v) <-> reads_as e s n v) /\ (decode e t old n = UB <-> breaks e s n).

Lemma exact_bytes n : 0 <= n -> exactly (TBytes n) (SByteVector n).
Proof.
  intros Hn old nd _. unfold decode. cbn [yvt y_decode]. unfold bytes_decode.
  destruct nd as [str|ns|m]; cbn [scalar_decode].
  2,3: split; [intros v|]; (split; [discriminate|]); intros H; inversion H.
  unfold bytes_from_str. destruct (prefix_0x str) eqn:P; cbn [negb].
  2:{ cbn [bind]. split; [intros v|]; (split; [discriminate|]); intros H; inversion H; subst; discriminate P. }
  apply prefix_0x_iff in P. destruct P as [d ->]. rewrite !zlen_cons.
  destruct (Z.gtb_spec (1 + (1 + zlen d)) (2 * Z.of_nat (Z.to_nat n) + 2)) as [G|G].
  { cbn [bind]. split; [intros v|]; (split; [discriminate|]); intros H; inversion H; subst; lia. }
  change (skipn 2 (48 :: 120 :: d)) with d.
  destruct (from_str_exact d [] (Z.to_nat n) ltac:(lia)) as [E1 E2]. cbn [length app] in E1, E2.
  split.
  - intros v. split.
    + intros E. destruct (bytes_from_str_loop _ _ _) as [r| |] eqn:L; cbn [bind] in E; try discriminate.
      destruct (proj1 (E1 r) eq_refl) as (l & D & ->). injection E as <-. constructor; [lia|exact D].
    + intros R. inversion R as [| |? ? l Hd D| | | | |]; subst. rewrite (proj2 (E1 _) (ex_intro _ l (conj D eq_refl))). reflexivity.
  - transitivity (bytes_from_str_loop d 0 (repeat 0 (Z.to_nat n)) = UB);
      [destruct (bytes_from_str_loop _ _ _); cbn [bind]; split; congruence|]. rewrite E2. split.
    + intros N. constructor; [lia|exact N].
    + intros B. inversion B; subst. assumption.
Qed.
Lemma exact_slot : exactly TSlot SUint64.
Proof.
  intros old nd _. unfold decode. cbn [yvt y_decode]. unfold slot_decode. destruct nd as [str|ns|m]; cbn [scalar_decode].
  2,3: split; [intros v|]; (split; [discriminate|]); intros H; inversion H.
  split; [intros v|]; split.
  - destruct (text_num e str) eqn:T; [|discriminate]. intros E. assert (v = VNum z) by congruence. subst. now constructor.
  - intros R. inversion R as [? x T| | | | | | |]; subst. rewrite T. reflexivity.
  - destruct (text_num e str); discriminate.
  - intros B. inversion B.
Qed.
Lemma exact_boolean : exactly TBoolean SBoolean.
Proof.
  intros old nd _. unfold decode. cbn [yvt y_decode]. unfold boolean_decode. destruct nd as [str|ns|m]; cbn [scalar_decode].
  2,3: split; [intros v|]; (split; [discriminate|]); intros H; inversion H.
  split; [intros v|]; split.
  - destruct (text_bool e str) eqn:T; [|discriminate]. intros E. assert (v = VBool b) by congruence. subst. now constructor.
  - intros R. inversion R as [|? x T| | | | | |]; subst. rewrite T. reflexivity.
  - destruct (text_bool e str); discriminate.
  - intros B. inversion B.
Qed.
Lemma bv_outer_val n h : 0 <= n -> bytes_ok h ->
  bv_outer n h 0 (repeat false (Z.to_nat n)) = bits_of (Z.to_nat n) (le_val h).
Proof.
  intros Hn Hh. apply nth_ext with (d := false) (d' := false).
  - now rewrite bv_outer_length, bits_of_length, repeat_length.
  - intros i Hi. rewrite bv_outer_length, repeat_length in Hi.
    rewrite bv_outer_nth; [|lia|rewrite zlen_repeat; lia|rewrite repeat_length; lia|exact Hh].
    rewrite nth_bits_of by lia. destruct (_ && _) eqn:B; [f_equal; lia|].
    rewrite nth_repeat. symmetry. pose proof (le_val_bound h Hh) as [B0 B1]. rewrite pow2_8 in B1.
    destruct (Z.eq_dec (le_val h) 0) as [->|N]; [apply Z.bits_0|].
    apply Z.bits_above_log2; [lia|]. apply Z.log2_lt_pow2; [lia|]. eapply Z.lt_le_trans; [exact B1|].
    apply Z.pow_le_mono_r; [lia|]. pose proof (zlen_nonneg h). lia.
Qed.
Lemma exact_bitvector n : 0 <= n -> exactly (TBitvector n) (SBitvector n).
Proof.
  intros Hn old nd _. unfold decode. cbn [yvt y_decode]. unfold bitvector_decode. destruct nd as [str|ns|m]; cbn [scalar_decode].
  2,3: split; [intros v|]; (split; [discriminate|]); intros H; inversion H.
  unfold bitvector_from_hexstring. destruct (prefix_0x str) eqn:P; cbn [negb].
  2:{ cbn [bind]. split; [intros v|]; (split; [discriminate|]); intros H; inversion H; subst; discriminate P. }
  apply prefix_0x_iff in P. destruct P as [d ->]. rewrite !zlen_cons.
  destruct (Z.eqb_spec ((1 + (1 + zlen d)) mod 2) 0) as [M|M]; cbn [negb].
  2:{ cbn [bind]. split; [intros v|]; (split; [discriminate|]); intros H; inversion H; subst; lia. }
  change (skipn 2 (48 :: 120 :: d)) with d. assert (M' : zlen d mod 2 = 0) by lia. clear M. split.
  - intros v. split.
    + destruct (hex_pairs d) as [h| |] eqn:E; cbn [bind]; try discriminate. intros F. injection F as <-.
      rewrite bv_outer_val by (auto; eapply hex_pairs_ok; eauto). apply hex_pairs_denotes in E. destruct E as [D L].
      apply A_bitvector with (h := h); auto.
      * unfold zlen. rewrite bits_of_length. lia.
      * rewrite bits_val_of. f_equal. f_equal. lia.
    + intros R. inversion R as [| | |? ? h l L D Hl Hv| | | |]; subst. assert (E : hex_pairs d = Ok h) by now apply hex_pairs_denotes.
      rewrite E. cbn [bind]. rewrite bv_outer_val by (auto; eapply hex_pairs_ok; eauto). do 3 f_equal.
      replace (Z.to_nat (zlen l)) with (length l) by (unfold zlen; lia).
      rewrite <- (bits_of_val l) at 2. rewrite Hv. unfold zlen. rewrite bits_of_mod by lia. reflexivity.
  - transitivity (hex_pairs d = UB); [destruct (hex_pairs d); cbn [bind]; split; congruence|]. rewrite hex_pairs_ub by exact M'. split.
    + intros N. now constructor.
    + intros B. inversion B; subst. assumption.
Qed.
Lemma undelimited_bytes d h : zlen d mod 2 = 0 -> hex_pairs d = Ok h ->
  (h = [] \/ List.last h 0 = 0 <-> undelimited (48 :: 120 :: d)).
Proof.
  intros M E. assert (Hd : Forall (fun ch => 0 <= ch < 128) d).
  { destruct (Forall_dec (fun ch => 0 <= ch < 128)
      (fun ch => ltac:(destruct (Z_le_dec 0 ch); [destruct (Z_lt_dec ch 128); [left; lia|right; lia]|right; lia])) d) as [F|F];
      [exact F|]. apply (hex_pairs_ub d M) in F. congruence. }
  rewrite <- (bitlist_deserialize_ub (VBits []) h) by (eapply hex_pairs_ok; eauto).
  rewrite <- (bitlist_text_ub e 0 (VBits []) (48 :: 120 :: d)) by (repeat (constructor; [lia|]); exact Hd).
  unfold decode. cbn [yvt y_decode]. unfold bitlist_decode. cbn [scalar_decode]. unfold bitlist_from_hexstring. cbn [prefix_0x].
  rewrite !zlen_cons. replace ((1 + (1 + zlen d)) mod 2) with 0 by lia. cbn [Z.eqb Pos.eqb andb negb].
  change (skipn 2 (48 :: 120 :: d)) with d. rewrite E. cbn [bind].
  destruct (bitlist_deserialize _ h) as [[? ?]| |]; cbn [bind]; split; congruence.
Qed.
Lemma undelimited_even d : undelimited (48 :: 120 :: d) -> zlen d mod 2 = 0.
Proof.
  intros [E|(q & a & b & E & [j Hj] & _)]; injection E as ->; [reflexivity|].
  unfold zlen. rewrite app_length, Hj. cbn [length]. lia.
Qed.
Lemma exact_bitlist n k : exactly (TBitlist n) (SBitlist k).
Proof.
  intros old nd _. unfold decode. cbn [yvt y_decode]. unfold bitlist_decode. destruct nd as [str|ns|m]; cbn [scalar_decode].
  2,3: split; [intros v|]; (split; [discriminate|]); intros H; inversion H.
  unfold bitlist_from_hexstring. destruct (prefix_0x str) eqn:P; cbn [negb].
  2:{ cbn [bind]. split; [intros v|]; (split; [discriminate|]); intros H; inversion H as [| |? d Hd|? s U| | |] || inversion H; subst;
      try discriminate P. exfalso.
      assert (C : starts_0x str) by (destruct U as [->|(q & a & b & -> & _)]; eexists; reflexivity).
      apply prefix_0x_iff in C. congruence. }
  apply prefix_0x_iff in P. destruct P as [d ->]. rewrite !zlen_cons.
  destruct (Z.eqb_spec ((1 + (1 + zlen d)) mod 2) 0) as [M|M]; cbn [negb].
  2:{ cbn [bind]. split; [intros v|]; (split; [discriminate|]); intros H.
      - inversion H; subst; lia.
      - inversion H as [| |? ? Hd|? ? U| | |]; subst; [lia|]. apply undelimited_even in U. lia. }
  change (skipn 2 (48 :: 120 :: d)) with d. assert (M' : zlen d mod 2 = 0) by lia. clear M. split.
  - intros v. split.
    + destruct (hex_pairs d) as [h| |] eqn:E; cbn [bind]; try discriminate.
      destruct (bitlist_deserialize old h) as [[ok v']| |] eqn:B; cbn [bind]; try discriminate. intros F. assert (v' = v) by congruence.
      subst v'. pose proof (hex_pairs_ok _ _ E) as Hh. apply hex_pairs_denotes in E. destruct E as [D L].
      pose proof B as B0. unfold bitlist_deserialize in B0. destruct (_ =? _); [discriminate|]. destruct (_ >? _); [discriminate|].
      cbn [bind] in B0. injection B0 as <- <-. eapply A_bitlist; [exact L|exact D|].
      rewrite <- (bitlist_canonical _ _ _ Hh B) at 1. apply bitlist_serialize_le.
    + intros R. inversion R as [| | | |? ? h l L D Hl| | |]; subst. rewrite (proj2 (hex_pairs_denotes _ _) (conj D L)). cbn [bind].
      rewrite <- bitlist_serialize_le, bitlist_roundtrip. reflexivity.
  - split.
    + intros U. destruct (hex_pairs d) as [h| |] eqn:E; cbn [bind] in U; [|discriminate|].
      * apply B_undelimited. apply (undelimited_bytes d h M' E). apply (bitlist_deserialize_ub old h (hex_pairs_ok _ _ E)).
        destruct (bitlist_deserialize old h) as [[? ?]| |]; cbn [bind] in U; congruence.
      * apply B_bitlist; [exact M'|]. now apply hex_pairs_ub.
    + intros B. inversion B as [| |? ? Hd N|? ? U| | |]; subst.
      * apply (hex_pairs_ub d M') in N. rewrite N. reflexivity.
      * destruct (hex_pairs d) as [h| |] eqn:E; cbn [bind]; [| |reflexivity].
        -- apply (undelimited_bytes d h M' E) in U. apply (bitlist_deserialize_ub old h (hex_pairs_ok _ _ E)) in U. rewrite U. reflexivity.
        -- exfalso. clear - E. revert E. induction d as [|a|a b d IH] using pair_ind; cbn [hex_pairs]; try discriminate.
           destruct (hextoint_cases a) as [[x Ea]|Ea]; rewrite Ea; cbn [bind]; [|discriminate].
           destruct (hextoint_cases b) as [[y Eb]|Eb]; rewrite Eb; cbn [bind]; [|discriminate].
           destruct (hex_pairs d); cbn [bind]; try discriminate; auto.
Qed.

(** ** Sequences *)
Lemma as_exact t s : exactly t s -> wt t (vt_default (vt t)) -> forall n,
  (forall v, as_T (yvt e t) n = Ok v <-> reads_as e s n v) /\ (as_T (yvt e t) n = UB <-> breaks e s n).
Proof.
  intros Hx Hd n. destruct (Hx _ n Hd) as [H1 H2]. unfold as_T.
  assert (D : y_default (yvt e t) = vt_default (vt t)) by (destruct t; reflexivity). rewrite D. unfold decode in H1, H2. split.
  - intros v. rewrite <- H1. destruct (y_decode _ _ n) as [[ok w]| |]; cbn [bind]; [|split; discriminate|split; discriminate].
    destruct ok; split; congruence.
  - rewrite <- H2. destruct (y_decode _ _ n) as [[ok w]| |]; cbn [bind]; [|split; discriminate|split; auto].
    destruct ok; split; congruence.
Qed.
Lemma mapM_exact {A B} (f : A -> outcome B) (R : A -> B -> Prop) (Q : A -> Prop) :
  (forall a, (forall b, f a = Ok b <-> R a b) /\ (f a = UB <-> Q a)) -> forall l,
  (forall m, mapM f l = Ok m <-> Forall2 R l m) /\
  (mapM f l = UB <-> exists l1 a l2 m, l = l1 ++ a :: l2 /\ Forall2 R l1 m /\ Q a).
Proof.
  intros Hf l. induction l as [|a l [IH1 IH2]]; cbn [mapM].
  - split.
    + intros m. split; [intros E; assert (m = []) by congruence; subst; constructor|intros F; inversion F; reflexivity].
    + split; [discriminate|]. intros (l1 & a & l2 & m & E & _). destruct l1; discriminate.
  - destruct (Hf a) as [H1 H2]. split.
    + intros m. split.
      * destruct (f a) as [b| |] eqn:E; cbn [bind]; try discriminate. destruct (mapM f l) as [m'| |] eqn:E'; cbn [bind]; try discriminate.
        intros F. assert (m = b :: m') by congruence. subst. constructor; [now apply H1|now apply IH1].
      * intros F. inversion F as [|? b ? m' Hb Hm]; subst. apply H1 in Hb. apply IH1 in Hm. rewrite Hb. cbn [bind]. rewrite Hm. reflexivity.
    + split.
      * destruct (f a) as [b| |] eqn:E; cbn [bind]; [|discriminate|].
        -- destruct (mapM f l) as [m'| |] eqn:E'; cbn [bind]; try discriminate. intros _.
           destruct (proj1 IH2 eq_refl) as (l1 & c & l2 & m & -> & F & Hq). exists (a :: l1), c, l2, (b :: m). split; [reflexivity|].
           split; [constructor; [now apply H1|exact F]|exact Hq].
        -- intros _. exists [], a, l, []. split; [reflexivity|]. split; [constructor|]. now apply H2.
      * intros (l1 & c & l2 & m & E & F & Hq). destruct l1 as [|a' l1]; cbn [app] in E.
        -- injection E as <- <-. apply H2 in Hq. rewrite Hq. reflexivity.
        -- injection E as <- ->. inversion F as [|? b ? m' Hb Hm]; subst. apply H1 in Hb. rewrite Hb. cbn [bind].
           rewrite (proj2 IH2) by (exists l1, c, l2, m'; auto). reflexivity.
Qed.
Lemma exact_vector t s n : exactly t s -> wt t (vt_default (vt t)) -> exactly (TVector t n) (SVector s n).
Proof.
  intros Hx Hd old nd _. unfold decode. cbn [yvt y_decode]. unfold array_decode. destruct nd as [str|ns|m].
  1,3: split; [intros v|]; (split; [discriminate|]); intros H; inversion H.
  destruct (Z.eqb_spec (zlen ns) n) as [L|L]; cbn [negb].
  2:{ split; [intros v|]; (split; [discriminate|]); intros H; inversion H; subst; congruence. }
  destruct (mapM_exact _ _ _ (as_exact t s Hx Hd) ns) as [H1 H2]. split.
  - intros v. split.
    + destruct (mapM _ ns) as [vs| |] eqn:E; cbn [bind]; try discriminate. intros F. assert (v = VSeq vs) by congruence. subst v.
      constructor; [exact L|]. now apply H1.
    + intros R. inversion R as [| | | | |? ? ? l _ F| |]; subst. apply H1 in F. rewrite F. reflexivity.
  - transitivity (mapM (as_T (yvt e t)) ns = UB); [destruct (mapM _ ns); cbn [bind]; split; congruence|]. rewrite H2. split.
    + intros (l1 & a & l2 & m & -> & F & B). eapply B_vector; eauto.
    + intros B. inversion B as [| | | |? ? l1 a l2 m HL F Ba| |]; subst. exists l1, a, l2, m. auto.
Qed.
Lemma exact_list t s k : exactly t s -> wt t (vt_default (vt t)) -> forall old nd,
  (forall v, vec_decode (yvt e t) old nd = Ok (true, v) <-> reads_as e (SList s k) nd v) /\
  (vec_decode (yvt e t) old nd = UB <-> breaks e (SList s k) nd).
Proof.
  intros Hx Hd old nd. unfold vec_decode. destruct nd as [str|ns|m].
  1,3: split; [intros v|]; (split; [discriminate|]); intros H; inversion H.
  destruct (mapM_exact _ _ _ (as_exact t s Hx Hd) ns) as [H1 H2]. split.
  - intros v. split.
    + destruct (mapM _ ns) as [vs| |] eqn:E; cbn [bind]; try discriminate. intros F. assert (v = VSeq vs) by congruence. subst v.
      constructor. now apply H1.
    + intros R. inversion R as [| | | | | |? ? ? l F|]; subst. apply H1 in F. rewrite F. reflexivity.
  - transitivity (mapM (as_T (yvt e t)) ns = UB); [destruct (mapM _ ns); cbn [bind]; split; congruence|]. rewrite H2. split.
    + intros (l1 & a & l2 & m & -> & F & B). eapply B_list; eauto.
    + intros B. inversion B as [| | | | |? ? l1 a l2 m F Ba|]; subst. exists l1, a, l2, m. auto.
Qed.

(** ** Containers *)
Lemma ymap_get_bound m name n : ymap_get m name = Ok n <-> bound_to m name n.
Proof.
  unfold bound_to. induction m as [|[k y] m IH]; cbn [ymap_get].
  - split; [discriminate|]. intros (m1 & m2 & E & _). destruct m1; discriminate.
  - destruct (String.eqb_spec k name) as [->|N].
    + split.
      * intros E. assert (y = n) by congruence. subst. exists [], m. split; [reflexivity|]. intros [].
      * intros (m1 & m2 & E & F). destruct m1 as [|p m1]; cbn [app] in E; [congruence|].
        injection E as <- _. destruct F. left. reflexivity.
    + rewrite IH. split.
      * intros (m1 & m2 & -> & F). exists ((k, y) :: m1), m2. split; [reflexivity|]. intros [C|C]; [exact (N C)|exact (F C)].
      * intros (m1 & m2 & E & F). destruct m1 as [|p m1]; cbn [app] in E; [congruence|].
        injection E as <- ->. exists m1, m2. split; [reflexivity|]. intros C. apply F. right. exact C.
Qed.
Lemma ymap_get_no_ub m name : ymap_get m name <> UB.
Proof. induction m as [|[k y] m IH]; cbn [ymap_get]; [discriminate|]. destruct (String.eqb k name); [discriminate|exact IH]. Qed.
Lemma upd_app {A} (pre : list A) x y r : upd (pre ++ x :: r) (length pre) y = (pre ++ [y]) ++ r.
Proof. induction pre as [|a pre IH]; cbn [app length upd]; [reflexivity|]. now rewrite IH. Qed.
Notation field m := (fun (f : string * sty) v => exists n, bound_to m (fst f) n /\ reads_as e (snd f) n v).
Lemma exact_parts m : forall gs ts ts0 pre old, length pre = length ts0 ->
  Forall2 (fun t (f : string * sty) => exactly t (snd f)) ts gs -> all2 wt ts old ->
  let r := decode_ (map (yvt e) (ts0 ++ ts)) (YMap m) (combine (map fst gs) (seq (length pre) (length gs))) (pre ++ old) in
  (forall l, r = Ok (true, l) <-> exists vs, Forall2 (field m) gs vs /\ l = pre ++ vs) /\
  (r = UB <-> exists gs1 f gs2 vs n, gs = gs1 ++ f :: gs2 /\ Forall2 (field m) gs1 vs /\ bound_to m (fst f) n /\ breaks e (snd f) n).
Proof.
  induction gs as [|[name s] gs IH]; intros ts ts0 pre old Hp Hx Ho; cbn zeta.
  - inversion Hx; subst. destruct old; [|contradiction Ho]. cbn [map length seq combine decode_]. split.
    + intros l. split.
      * intros E. exists []. split; [constructor|]. congruence.
      * intros (vs & F & ->). inversion F. reflexivity.
    + split; [discriminate|]. intros (gs1 & f & gs2 & ? & ? & E & _). destruct gs1; discriminate.
  - inversion Hx as [|t ? ts' ? Ht Hx']; subst. destruct old as [|o old]; [contradiction Ho|]. destruct Ho as [Ho Hos].
    cbn [map length seq combine decode_ yget fst].
    destruct (ymap_get m name) as [n| |] eqn:G; cbn [bind].
    3:{ destruct (ymap_get_no_ub _ _ G). }
    2:{ assert (Nb : forall n, ~ bound_to m name n) by (intros n Hb; apply ymap_get_bound in Hb; congruence). split.
        - intros l. split; [discriminate|]. intros (vs & F & _). inversion F as [|? ? ? ? (n & Hb & _)]; subst. destruct (Nb _ Hb).
        - split; [discriminate|]. intros (gs1 & f & gs2 & vs & n & E & F & Hb & _). destruct gs1 as [|g gs1]; cbn [app] in E.
          + injection E as <- _. destruct (Nb _ Hb).
          + injection E as <- _. inversion F as [|? ? ? ? (n' & Hb' & _)]; subst. destruct (Nb _ Hb'). }
    apply ymap_get_bound in G.
    assert (Ep : nth (length pre) (map (yvt e) (ts0 ++ t :: ts'))
       {| y_default := VNum 0; y_encode := fun _ => YSeq []; y_decode := fun _ _ => UB |} = yvt e t).
    { rewrite map_app, app_nth2 by (rewrite map_length; lia). rewrite map_length, Hp, Nat.sub_diag. reflexivity. }
    rewrite Ep. rewrite app_nth2, Nat.sub_diag by lia. cbn [nth].
    cbn [snd] in Ht. destruct (Ht o n Ho) as [H1 H2]. unfold decode in H1, H2.
    assert (Un : forall n', bound_to m name n' -> n' = n).
    { intros n' Hb. apply ymap_get_bound in Hb, G. congruence. }
    destruct (y_decode (yvt e t) o n) as [[ok v]| |] eqn:D; cbn [bind].
    + destruct ok.
      * rewrite upd_app. specialize (IH ts' (ts0 ++ [t]) (pre ++ [v]) old).
        rewrite !app_length in IH. cbn [length] in IH. replace (length pre + 1)%nat with (S (length pre)) in IH by lia.
        rewrite <- (app_assoc ts0) in IH. cbn [app] in IH. specialize (IH ltac:(lia) Hx' Hos). cbn zeta in IH. destruct IH as [I1 I2].
        pose proof (proj1 (H1 v) eq_refl) as Rv. split.
        -- intros l. rewrite I1. split.
           ++ intros (vs & F & ->). exists (v :: vs). split; [|rewrite <- app_assoc; reflexivity].
              constructor; [|exact F]. exists n. cbn [fst snd]. auto.
           ++ intros (vs & F & ->). inversion F as [|? w ? vs' (n' & Hb & Hr) F']; subst. cbn [fst snd] in *.
              rewrite (Un _ Hb) in Hr. apply H1 in Hr. assert (w = v) by congruence. subst.
              exists vs'. split; [exact F'|]. rewrite <- app_assoc. reflexivity.
        -- rewrite I2. split.
           ++ intros (gs1 & f & gs2 & vs & n' & -> & F & Hb & B). exists ((name, s) :: gs1), f, gs2, (v :: vs), n'.
              split; [reflexivity|]. split; [|auto]. constructor; [|exact F]. exists n. cbn [fst snd]. auto.
           ++ intros (gs1 & f & gs2 & vs & n' & E & F & Hb & B). destruct gs1 as [|g gs1]; cbn [app] in E.
              ** injection E as <- <-. cbn [fst snd] in *. rewrite (Un _ Hb) in B. apply H2 in B. discriminate.
              ** injection E as <- ->. inversion F as [|? ? ? vs' _ F']; subst. exists gs1, f, gs2, vs', n'. auto.
      * split.
        -- intros l. split; [discriminate|]. intros (vs & F & _). inversion F as [|? w ? vs' (n' & Hb & Hr) F']; subst. cbn [fst snd] in *.
           rewrite (Un _ Hb) in Hr. apply H1 in Hr. discriminate.
        -- split; [discriminate|]. intros (gs1 & f & gs2 & vs & n' & E & F & Hb & B). destruct gs1 as [|g gs1]; cbn [app] in E.
           ++ injection E as <- <-. cbn [fst snd] in *. rewrite (Un _ Hb) in B. apply H2 in B. discriminate.
           ++ injection E as <- ->. inversion F as [|? w ? vs' (n'' & Hb' & Hr) F']; subst. cbn [fst snd] in *.
              rewrite (Un _ Hb') in Hr. apply H1 in Hr. discriminate.
    + split.
      * intros l. split; [discriminate|]. intros (vs & F & _). inversion F as [|? w ? vs' (n' & Hb & Hr) F']; subst. cbn [fst snd] in *.
        rewrite (Un _ Hb) in Hr. apply H1 in Hr. discriminate.
      * split; [discriminate|]. intros (gs1 & f & gs2 & vs & n' & E & F & Hb & B). destruct gs1 as [|g gs1]; cbn [app] in E.
        -- injection E as <- <-. cbn [fst snd] in *. rewrite (Un _ Hb) in B. apply H2 in B. discriminate.
        -- injection E as <- ->. inversion F as [|? w ? vs' (n'' & Hb' & Hr) F']; subst. cbn [fst snd] in *.
           rewrite (Un _ Hb') in Hr. apply H1 in Hr. discriminate.
    + split.
      * intros l. split; [discriminate|]. intros (vs & F & _). inversion F as [|? w ? vs' (n' & Hb & Hr) F']; subst. cbn [fst snd] in *.
        rewrite (Un _ Hb) in Hr. apply H1 in Hr. discriminate.
      * split; [|reflexivity]. intros _. exists [], (name, s), gs, [], n. cbn [fst snd]. split; [reflexivity|]. split; [constructor|].
        split; [exact G|]. now apply H2.
Qed.
Theorem decode_exact t : wf t = true -> forall s, matches t s = true -> same_names t s = true -> exactly t s.
Proof.
  induction t as [n| | |n|n|t n IH|t n IH|t n IH|ci fs IH] using ty_ind'; intros Hwf s Hm Hs;
    destruct s; try discriminate Hm; cbn [matches same_names] in *.
  - assert (n0 = n) by lia. subst. apply exact_bytes. cbn [wf] in Hwf. lia.
  - apply exact_slot.
  - apply exact_boolean.
  - assert (n0 = n) by lia. subst. apply exact_bitvector. cbn [wf] in Hwf. lia.
  - apply exact_bitlist.
  - apply andb_true_iff in Hm. destruct Hm as [Hn Hm]. assert (n0 = n) by lia. subst. apply wf_vector in Hwf.
    apply exact_vector; [auto|now apply wt_default].
  - apply andb_true_iff in Hm. destruct Hm as [Hn Hm]. apply wf_listf in Hwf. intros old nd _.
    exact (exact_list t s _ (IH Hwf s Hm Hs) (wt_default t Hwf) old nd).
  - apply andb_true_iff in Hm. destruct Hm as [Hn Hm]. apply wf_listv in Hwf. intros old nd _.
    exact (exact_list t s _ (IH Hwf s Hm Hs) (wt_default t Hwf) old nd).
  - apply andb_true_iff in Hs. destruct Hs as [Hn Hs]. apply parts_eqb_eq in Hn.
    pose proof (cw_nonempty _ _ (wf_class _ _ Hwf)) as Ne.
    apply wf_fields in Hwf. pose proof (all2b_len _ _ _ Hm) as L. intros old nd Ho. destruct old as [| | | |l]; try contradiction Ho.
    cbn [wt] in Ho.
    assert (Hx : Forall2 (fun t (f : string * sty) => exactly t (snd f)) fs fields).
    { clear - IH Hwf Hm Hs. revert fields Hm Hs. induction IH as [|t fs Ht _ IHf]; intros [|f gs] Hm Hs; try discriminate; constructor.
      - cbn [all2b] in Hm, Hs. apply andb_true_iff in Hm, Hs. apply Ht; [now apply Forall_inv in Hwf|tauto|tauto].
      - cbn [all2b] in Hm, Hs. apply andb_true_iff in Hm, Hs. apply IHf; [now apply Forall_inv_tail in Hwf|tauto|tauto]. }
    unfold decode. cbn [yvt y_decode]. rewrite Hn.
    destruct nd as [str|ns|m].
    1,2: destruct fields as [|[nm s'] gs]; [destruct fs; [congruence|discriminate]|];
      cbn [map length seq combine decode_ yget bind]; split; [intros v|]; (split; [discriminate|]); intros H; inversion H.
    destruct (exact_parts m fields fs [] [] l eq_refl Hx Ho) as [E1 E2]. cbn [app length] in E1, E2. split.
    + intros v. split.
      * destruct (decode_ _ _ _ _) as [[ok r]| |]; cbn [bind]; try discriminate. intros E. injection E as -> <-.
        destruct (proj1 (E1 r) eq_refl) as (vs & F & ->). now constructor.
      * intros R. inversion R as [| | | | | | |? ? vs F]; subst. rewrite (proj2 (E1 vs)); [reflexivity|]. exists vs. auto.
    + transitivity (decode_ (map (yvt e) fs) (YMap m) (combine (map fst fields) (seq 0 (length fields))) l = UB).
      { destruct (decode_ _ _ _ _) as [[ok r]| |]; cbn [bind]; split; congruence. }
      rewrite E2. split.
      * intros (gs1 & f & gs2 & vs & n & -> & F & Hb & B). eapply B_container; eauto.
      * intros B. inversion B as [| | | | | |gs1 f gs2 ? vs n F Hb Br]; subst. exists gs1, f, gs2, vs, n. auto.
Qed.

(** ** Round trip *)
Hypothesis He : externals_ok e.
Definition plainly (t : ty) (s : sty) : Prop := forall v, wt t v -> (reads_as e s (encode e t v) v <-> bitless s v).
Lemma bound_fun m name n n' : bound_to m name n -> bound_to m name n' -> n = n'.
Proof. intros A B. apply ymap_get_bound in A, B. congruence. Qed.
Fixpoint encs (ts : list ty) (l : list val) : list ynode :=
  match ts, l with
  | t :: ts', v :: l' => encode e t v :: encs ts' l'
  | _, _ => []
  end.
Lemma pn_encs : forall gs ts ts0 pre l, length pre = length ts0 -> length gs = length ts -> all2 wt ts l ->
  map (pn e (pre ++ l) (ts0 ++ ts)) (combine (map fst gs) (seq (length pre) (length gs))) =
  combine (map (fst : string * sty -> string) gs) (encs ts l).
Proof.
  induction gs as [|[name s] gs IH]; intros [|t ts] ts0 pre l Hp Hl Hw; try discriminate Hl; [reflexivity|].
  destruct l as [|v l]; [contradiction Hw|]. destruct Hw as [Hv Hw]. cbn [map length seq combine encs fst]. f_equal.
  - unfold pn. cbn [fst snd]. f_equal. erewrite map_nth_error with (d := t).
    + rewrite app_nth2, Nat.sub_diag by lia. reflexivity.
    + rewrite nth_error_app2 by lia. rewrite Hp, Nat.sub_diag. reflexivity.
  - specialize (IH ts (ts0 ++ [t]) (pre ++ [v]) l). rewrite !app_length, <- !app_assoc in IH. cbn [length app] in IH.
    replace (length pre + 1)%nat with (S (length pre)) in IH by lia. cbn [length] in Hl. apply IH; [lia|lia|exact Hw].
Qed.
Lemma fields_plain m : forall gs ts l, Forall2 (fun t (f : string * sty) => plainly t (snd f)) ts gs -> all2 wt ts l ->
  (forall name n, In (name, n) (combine (map fst gs) (encs ts l)) -> bound_to m name n) ->
  (Forall2 (field m) gs l <-> Forall2 (fun f => bitless (snd f)) gs l).
Proof.
  induction gs as [|[name s] gs IH]; intros ts l Hp Hw Hb; inversion Hp as [|t ? ts' ? Ht Hp']; subst.
  - destruct l; [|contradiction Hw]. split; constructor.
  - destruct l as [|v l]; [contradiction Hw|]. destruct Hw as [Hv Hw]. cbn [map encs combine fst] in Hb. cbn [snd] in Ht.
    specialize (IH ts' l Hp' Hw (fun a b H => Hb a b (or_intror H))).
    pose proof (Hb _ _ (or_introl eq_refl)) as Hn. split; intros F; inversion F as [|? ? ? ? Ff Fr]; subst; constructor.
    + destruct Ff as (n & Bn & R). cbn [fst snd] in *. rewrite (bound_fun _ _ _ _ Bn Hn) in R. now apply Ht.
    + now apply IH.
    + exists (encode e t v). cbn [fst snd] in *. split; [exact Hn|]. now apply Ht.
    + now apply IH.
Qed.
Lemma seq_plain t s : plainly t s -> forall l, Forall (wt t) l ->
  (Forall2 (reads_as e s) (map (y_encode (yvt e t)) l) l <-> Forall (bitless s) l).
Proof.
  intros Ht l Hl. induction Hl as [|v l Hv Hl IH]; cbn [map]; [split; constructor|].
  split; intros F; (constructor; [apply Ht; [exact Hv|]; now inversion F|apply IH; now inversion F]).
Qed.
Theorem survives t : wf t = true -> yaml_wf t = true -> forall s, matches t s = true -> same_names t s = true -> plainly t s.
Proof.
  induction t as [n| | |n|n|t n IH|t n IH|t n IH|ci fs IH] using ty_ind'; intros Hwf Hy s Hm Hs v Hv;
    match goal with |- reads_as e s ?nd v <-> _ => pose proof (decode_exact _ Hwf s Hm Hs _ nd (wt_default _ Hwf)) as [X _] end; specialize (X v);
    destruct s; try discriminate Hm; cbn [matches same_names] in *.
  - rewrite <- X. destruct v; try contradiction Hv. split; [constructor|]. intros _.
    apply (back_all e He (TBytes n) Hwf Hy eq_refl (VBytes l)); [exact Hv|now apply wt_default].
  - rewrite <- X. destruct v; try contradiction Hv. split; [constructor|]. intros _.
    apply (back_all e He TSlot Hwf Hy eq_refl (VNum n)); [exact Hv|now apply wt_default].
  - rewrite <- X. destruct v; try contradiction Hv. split; [constructor|]. intros _.
    apply (back_all e He TBoolean Hwf Hy eq_refl (VBool b)); [exact Hv|now apply wt_default].
  - rewrite <- X. destruct v as [| | |l|]; try contradiction Hv. cbn [wt wf] in *. rewrite bitvector_iff by lia. split.
    + now constructor.
    + intros P. now inversion P.
  - rewrite <- X. split; [|intros P; inversion P]. intros E. destruct (bitlist_never n e v _ Hv E).
  - apply andb_true_iff in Hm. destruct Hm as [Hn Hm]. apply wf_vector in Hwf. cbn [yaml_wf] in Hy.
    destruct v as [| | | |l]; try contradiction Hv. cbn [wt] in Hv. destruct Hv as [Hl Hv]. clear X.
    pose proof (seq_plain t s (IH Hwf Hy s Hm Hs) l Hv) as Q. unfold encode. cbn [yvt y_encode seq_encode]. split; intros F.
    + inversion F; subst. constructor. now apply Q.
    + inversion F; subst. constructor; [rewrite zlen_map; lia|]. now apply Q.
  - apply andb_true_iff in Hm. destruct Hm as [Hn Hm]. apply wf_listf in Hwf. cbn [yaml_wf] in Hy.
    destruct v as [| | | |l]; try contradiction Hv. cbn [wt] in Hv. clear X.
    pose proof (seq_plain t s (IH Hwf Hy s Hm Hs) l Hv) as Q. unfold encode. cbn [yvt y_encode seq_encode].
    split; intros F; inversion F; subst; constructor; now apply Q.
  - apply andb_true_iff in Hm. destruct Hm as [Hn Hm]. apply wf_listv in Hwf. cbn [yaml_wf] in Hy.
    destruct v as [| | | |l]; try contradiction Hv. cbn [wt] in Hv. clear X.
    pose proof (seq_plain t s (IH Hwf Hy s Hm Hs) l Hv) as Q. unfold encode. cbn [yvt y_encode seq_encode].
    split; intros F; inversion F; subst; constructor; now apply Q.
  - apply andb_true_iff in Hs. destruct Hs as [Hn Hs]. apply parts_eqb_eq in Hn.
    pose proof (all2b_len _ _ _ Hm) as L. apply wf_fields in Hwf. clear X.
    destruct v as [| | | |l]; try contradiction Hv. cbn [wt] in Hv.
    cbn [yaml_wf] in Hy. rewrite !andb_true_iff in Hy. destruct Hy as [[[He1 Hq] Hd] Hys].
    apply parts_eqb_eq in He1. apply distinct_nodup in Hd.
    assert (Hx : Forall2 (fun t (f : string * sty) => plainly t (snd f)) fs fields).
    { clear - IH Hwf Hm Hs Hys. revert fields Hm Hs. induction IH as [|t fs Ht _ IHf]; intros [|f gs] Hm Hs; try discriminate; constructor.
      - cbn [all2b forallb] in Hm, Hs, Hys. apply andb_true_iff in Hm, Hs, Hys. apply Ht; [now apply Forall_inv in Hwf|tauto..].
      - cbn [all2b forallb] in Hm, Hs, Hys. apply andb_true_iff in Hm, Hs, Hys. apply IHf; [now apply Forall_inv_tail in Hwf|tauto..]. }
    unfold encode. cbn [yvt y_encode]. rewrite encode_eq by (rewrite map_map; exact Hd).
    change (fun p : string * nat => _) with (pn e l fs). rewrite He1, Hn in *.
    pose proof (pn_encs fields fs [] [] l eq_refl (eq_sym L) Hv) as P. cbn [app length] in P. rewrite P.
    assert (Nd : NoDup (map fst (combine (map fst fields) (encs fs l)))).
    { rewrite <- P, map_map. exact Hd. }
    set (m := combine (map fst fields) (encs fs l)) in *.
    assert (Q : Forall2 (field m) fields l <-> Forall2 (fun f => bitless (snd f)) fields l).
    { apply (fields_plain m fields fs l Hx Hv). intros name n Hi. apply ymap_get_bound, ymap_get_in; assumption. }
    split; intros F; inversion F; subst; constructor; now apply Q.
Qed.
End Exact.

(** ** Containers *)
Lemma exact_container e t s : container_pair t s -> exactly e t s.
Proof.
  intros Hp. apply decode_exact; [apply is_container_wf; exact (container_pair_container t s Hp)|now apply container_pair_matches|now apply container_pair_names].
Qed.
Lemma container_reads e t s old node v : container_pair t s -> wt t old ->
  (decode e t old node = Ok (true, v) <-> reads_as e s node v).
Proof. intros Hp Ho. exact (proj1 (exact_container e t s Hp old node Ho) v). Qed.
Lemma container_breaks e t s old node : container_pair t s -> wt t old ->
  (decode e t old node = UB <-> breaks e s node).
Proof. intros Hp Ho. exact (proj2 (exact_container e t s Hp old node Ho)). Qed.
Lemma container_survives e t s v old : externals_ok e -> container_pair t s -> wt t v -> wt t old ->
  (decode e t old (encode e t v) = Ok (true, v) <-> bitless s v).
Proof.
  intros He Hp Hv Ho. rewrite (container_reads e t s old _ v Hp Ho).
  pose proof (container_pair_container t s Hp) as Hc.
  apply (survives e He t); auto using is_container_wf, is_container_yaml, container_pair_matches, container_pair_names.
Qed.
(** Parts of containers. *)
Lemma part_reads e t s old node v : wf t = true -> matches t s = true -> same_names t s = true -> wt t old ->
  (decode e t old node = Ok (true, v) <-> reads_as e s node v).
Proof. intros W M N Ho. exact (proj1 (decode_exact e t W s M N old node Ho) v). Qed.
Lemma part_breaks e t s old node : wf t = true -> matches t s = true -> same_names t s = true -> wt t old ->
  (decode e t old node = UB <-> breaks e s node).
Proof. intros W M N Ho. exact (proj2 (decode_exact e t W s M N old node Ho)). Qed.
