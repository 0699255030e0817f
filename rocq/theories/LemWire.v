(** Acceptance of deserialize is exactly [SpecWire.accepts]. *)
From Coq Require Import ZArith String List Bool Lia Sorting.Sorted.
From Coq Require Import ZifyBool ZifyNat.
From Verif Require Import SpecClasses Base SpecSSZ SpecWire ModelSSZ SpecObj LemBase LemBits LemTy LemSer LemDes LemCodec LemCodecSeq LemCodecAll LemMatch.
Import ListNotations.
Open Scope Z_scope.
Ltac Zify.zify_post_hook ::= Z.div_mod_to_equations.

Lemma slice_bytes_at b i j : 0 <= i <= j -> j <= zlen b -> slice b i j = Ok (bytes_at b i j).
Proof. intros. rewrite slice_ok by lia. reflexivity. Qed.

Lemma bytes_at_ok b i j : bytes_ok b -> bytes_ok (bytes_at b i j).
Proof.
  unfold bytes_ok, bytes_at. rewrite !Forall_forall. intros Hb x Hx. apply Hb.
  eapply In_skipn, In_firstn, Hx.
Qed.
Lemma u32_at_nonneg b i : bytes_ok b -> 0 <= u32_at b i.
Proof. intros Hb. apply le_val_bound. now apply bytes_at_ok. Qed.

Lemma offsets_nonneg b : bytes_ok b -> forall sizes pos, Forall (fun o => 0 <= o) (offsets sizes b pos).
Proof.
  intros Hb. induction sizes as [|s r IH]; intros pos; cbn [offsets]; [constructor|].
  destruct (s =? 0); auto. constructor; auto. now apply u32_at_nonneg.
Qed.

Lemma sorted_hd_tl lo o r : Sorted Z.le (lo :: o :: r) <-> lo <= o /\ Sorted Z.le (o :: r).
Proof.
  split.
  - intros E. inversion E; subst. inversion H2; subst. auto.
  - intros [H1 H2]. constructor; auto.
Qed.

Lemma ranges_layout b F : bytes_ok b -> 0 < F -> forall sizes it lo hi rs,
  Forall (fun s => 0 <= s) sizes -> 0 <= it <= zlen b -> 0 <= lo ->
  (ranges b F sizes it lo hi rs <->
   rs = part_ranges sizes b it /\ hi = hd (zlen b) (offsets sizes b it) /\
   it + fixed_room sizes <= zlen b /\
   (lo = 0 -> hd F (offsets sizes b it) = F) /\
   Sorted Z.le (lo :: offsets sizes b it) /\
   Forall (fun o => o <= zlen b) (offsets sizes b it)).
Proof.
  intros Hb HF. induction sizes as [|s r IH]; intros it lo hi rs Hp Hit Hlo;
    cbn [offsets part_ranges]; unfold fixed_room; cbn [map sumZ fold_right].
  - split.
    + intros Hr. inversion Hr; subst. cbn [hd]. repeat split; auto; lia.
    + intros (-> & -> & _). constructor.
  - inversion Hp as [|? ? Hs Hps]; subst.
    change (fold_right Z.add 0) with sumZ in *. fold (fixed_room r).
    assert (Hroom : 0 <= fixed_room r).
    { clear - Hps. unfold fixed_room. induction Hps; cbn [map sumZ fold_right]; [lia|].
      change (fold_right Z.add 0) with sumZ. destruct (Z.eqb_spec x 0); lia. }
    destruct (Z.eqb_spec s 0) as [->|Hz].
    + cbn [hd]. split.
      * intros Hr. inversion Hr as [|? ? ? ? ? ? Hc|? ? ? hi' rs' w Ew H1 H2 H3 H4]; subst; [easy|].
        pose proof (slice_inv _ _ _ _ Ew) as Hi.
        rewrite slice_bytes_at in Ew by lia. injection Ew as <-. fold (u32_at b it) in *.
        apply IH in H4; auto; try lia. destruct H4 as (-> & -> & Hr1 & _ & Hr3 & Hr4).
        rewrite sorted_hd_tl. repeat split; auto; lia.
      * intros (-> & -> & Hr1 & Hr2 & Hr3 & Hr4). rewrite sorted_hd_tl in Hr3.
        destruct Hr3 as [Hr3 Hr3']. inversion Hr4; subst.
        assert (Hpos : 0 < u32_at b it) by (destruct (Z.eq_dec lo 0); [rewrite Hr2; auto|lia]).
        apply r_var; try (apply slice_bytes_at; lia); auto.
        fold (u32_at b it). apply IH; auto; [lia|lia|]. repeat split; auto; lia.
    + split.
      * intros Hr. inversion Hr as [|? ? ? ? ? rs' Hc H1 H2|]; subst; [|congruence].
        apply IH in H2; auto; try lia. destruct H2 as (-> & -> & Hr1 & Hr2 & Hr3 & Hr4).
        repeat split; auto; lia.
      * intros (-> & -> & Hr1 & Hr2 & Hr3 & Hr4). apply r_fix; auto; [lia|].
        apply IH; auto; [lia|]. repeat split; auto; lia.
Qed.

Lemma sorted_zero l : Forall (fun o => 0 <= o) l -> (Sorted Z.le (0 :: l) <-> Sorted Z.le l).
Proof.
  intros Hn. split; [now inversion 1|]. intros Hs. constructor; auto.
  destruct Hn; constructor; auto.
Qed.

Lemma ranges_layout0 b sizes hi rs : bytes_ok b -> 0 < fixed_room sizes ->
  Forall (fun s => 0 <= s) sizes ->
  (ranges b (fixed_room sizes) sizes 0 0 hi rs <->
   layout_ok sizes b /\ rs = part_ranges sizes b 0 /\ hi = hd (zlen b) (offsets sizes b 0)).
Proof.
  intros Hb HF Hp. pose proof (zlen_nonneg b).
  rewrite ranges_layout by (auto; lia). rewrite sorted_zero by now apply offsets_nonneg.
  unfold layout_ok. split.
  - intros (-> & -> & H1 & H2 & H3 & H4). repeat split; auto.
  - intros ((H1 & H2 & H3 & H4) & -> & ->). repeat split; auto.
Qed.

(** Ranges of a correct layout lie inside the input. *)
Definition range_in (b : list Z) (r : Z * Z) : Prop := 0 <= fst r <= snd r /\ snd r <= zlen b.
Lemma layout_ranges_in b : bytes_ok b -> forall sizes it, Forall (fun s => 0 <= s) sizes ->
  0 <= it -> it + fixed_room sizes <= zlen b -> Sorted Z.le (offsets sizes b it) ->
  Forall (fun o => o <= zlen b) (offsets sizes b it) ->
  Forall (range_in b) (part_ranges sizes b it).
Proof.
  intros Hb. induction sizes as [|s r IH]; intros it Hp Hit Hr Hs Ha; cbn [part_ranges]; [constructor|].
  inversion Hp as [|? ? Hs0 Hps]; subst.
  assert (Hroom : 0 <= fixed_room r).
  { clear - Hps. unfold fixed_room. induction Hps; cbn [map sumZ fold_right]; [lia|].
    change (fold_right Z.add 0) with sumZ. destruct (Z.eqb_spec x 0); lia. }
  unfold fixed_room in Hr. cbn [map sumZ fold_right] in Hr. change (fold_right Z.add 0) with sumZ in Hr.
  fold (fixed_room r) in Hr. cbn [offsets] in Hs, Ha.
  destruct (Z.eqb_spec s 0) as [->|Hz].
  - inversion Hs as [|? ? Hs1 Hs2]; inversion Ha as [|? ? Ha1 Ha2]; subst. constructor.
    + unfold range_in. cbn [fst snd]. pose proof (u32_at_nonneg b it Hb).
      destruct (offsets r b (it + 4)) as [|o os]; cbn [hd]; [lia|].
      inversion Hs2; inversion Ha2; subst. lia.
    + apply IH; auto; lia.
  - constructor; [unfold range_in; cbn [fst snd]; lia|]. apply IH; auto; lia.
Qed.

(** Decoding the parts one by one. *)
Definition dec_ok (t : ty) (s : sty) : Prop :=
  forall old b v, wt t old -> bytes_ok b -> (vt_des (vt t) old b = Ok (true, v) <-> accepts s b v).

Fixpoint acc_all (ss : list sty) (bs : list (list Z)) (l : list val) : Prop :=
  match ss, bs, l with
  | [], [], [] => True
  | s :: ss', b :: bs', v :: l' => accepts s b v /\ acc_all ss' bs' l'
  | _, _, _ => False
  end.
Lemma acc_all_repeat s : forall bs l,
  acc_all (repeat s (length l)) bs l <-> Forall2 (accepts s) bs l.
Proof.
  intros bs l. revert bs. induction l as [|v l IH]; intros bs; destruct bs as [|b bs]; cbn [length repeat acc_all].
  - split; auto; constructor.
  - split; [tauto|inversion 1].
  - split; [tauto|inversion 1].
  - rewrite IH. split; [intros [? ?]; constructor; auto|inversion 1; auto].
Qed.

Lemma decode_all_acc b : bytes_ok b -> forall ts ss, Forall2 dec_ok ts ss ->
  forall olds rs vs, holds (map wt ts) olds -> Forall (range_in b) rs ->
  (decode_all b (map vt ts) olds rs vs <->
   acc_all ss (map (fun r : Z * Z => bytes_at b (fst r) (snd r)) rs) vs).
Proof.
  intros Hb. induction 1 as [|t s ts ss Hd _ IH]; intros olds rs vs Ho Hr;
    cbn [map] in Ho; inversion Ho as [|? y ? olds' Hy Hys]; subst; cbn [map decode_all acc_all].
  - destruct rs, vs; cbn [map]; tauto.
  - destruct rs as [|r rs]; cbn [map]; [tauto|]. destruct vs as [|v vs]; [tauto|].
    inversion Hr as [|? ? Hr1 Hr2]; subst. rewrite <- (IH olds') by auto.
    assert (E : decodes b (vt t) y r v <-> accepts s (bytes_at b (fst r) (snd r)) v).
    { unfold decodes. destruct Hr1 as [? ?]. rewrite slice_bytes_at by lia. rewrite <- (Hd y) by (auto using bytes_at_ok).
      split; [intros (x & [= <-] & E); auto|eauto]. }
    rewrite E. tauto.
Qed.

Lemma map_repeat {A B} (f : A -> B) x n : map f (repeat x n) = repeat (f x) n.
Proof. induction n; cbn; congruence. Qed.
Lemma Forall2_repeat {A B} (P : A -> B -> Prop) x y n : P x y -> Forall2 P (repeat x n) (repeat y n).
Proof. intros; induction n; cbn; constructor; auto. Qed.

Lemma part_ranges_cr s b : s <> 0 -> forall n pos, part_ranges (repeat s n) b pos = cr s pos n.
Proof.
  intros Hs. induction n; intros pos; cbn [repeat part_ranges cr]; auto.
  replace (s =? 0) with false by lia. now rewrite IHn.
Qed.
Lemma cr_in b s : 0 <= s -> forall n pos, 0 <= pos -> pos + Z.of_nat n * s <= zlen b ->
  Forall (range_in b) (cr s pos n).
Proof.
  intros Hs. induction n; intros pos Hp Hl; cbn [cr]; constructor.
  - unfold range_in. cbn [fst snd]. nia.
  - apply IHn; lia.
Qed.
Lemma fixed_room_repeat0 n : fixed_room (repeat 0 n) = 4 * Z.of_nat n.
Proof. induction n; [reflexivity|]. unfold fixed_room in *. cbn [repeat map sumZ fold_right Z.eqb] in *.
  change (fold_right Z.add 0) with sumZ. lia. Qed.
Lemma fixed_room_vt ts : fixed_room (map vt_size (map vt ts)) = vt_fixed (map vt ts).
Proof. unfold fixed_room, vt_fixed. now rewrite map_map. Qed.

Lemma matches_size t : wf t = true -> forall s, matches t s = true -> sty_size s = get_ssz_size t.
Proof.
  unfold get_ssz_size.
  induction t using ty_ind'; intros Hwf s Hm; destruct s; try discriminate Hm; cbn [matches sty_size] in *.
  - cbn [vt vt_size]. lia.
  - reflexivity.
  - reflexivity.
  - cbn [vt vt_size]. unfold BITS_PER_BYTE. apply Z.eqb_eq in Hm. subst. f_equal. lia.
  - reflexivity.
  - cbn [wf] in Hwf. apply andb_true_iff in Hwf as [Hwf Hsz]. apply andb_true_iff in Hwf as [Hwf Hn].
    apply andb_true_iff in Hm as [Hn' Hm]. rewrite (IHt Hwf _ Hm). apply Z.eqb_eq in Hn'. subst. reflexivity.
  - reflexivity.
  - reflexivity.
  - pose proof (matches_variable (TClass ci fs) Hwf (SContainer fields) Hm) as V.
    apply wf_class in Hwf. destruct Hwf. cbn [is_variable] in V. rewrite V.
    unfold get_ssz_size in *. cbn [vt vt_size].
    destruct (Z.eqb_spec (ci_size ci) 0) as [E|E]; [auto|]. rewrite cw_size in *.
    destruct (existsb (fun t => vt_size (vt t) =? 0) fs) eqn:Ex; [lia|].
    unfold fixed_size. f_equal. apply all2b_Forall2 in Hm.
    clear - Hm H cw_fields Ex. revert H cw_fields Ex.
    induction Hm as [|t0 g fs gs Hg _ IH]; intros Ha Hw Ex; auto.
    inversion Ha as [|? ? Hx Hxs]; inversion Hw; subst. cbn [map].
    cbn [existsb] in Ex. apply orb_false_iff in Ex as [Ex1 Ex2].
    unfold get_ssz_size in *. rewrite Ex1. f_equal; [apply Hx; auto|apply IH; auto].
Qed.

Lemma go_acc_all fs : forall bs l,
  (fix go (fs : list (string * sty)) (bs : list (list Z)) (l : list val) : Prop :=
     match fs, bs, l with
     | [], [], [] => True
     | (_, t) :: fs', b' :: bs', v' :: l' => accepts t b' v' /\ go fs' bs' l'
     | _, _, _ => False
     end) fs bs l <-> acc_all (map snd fs) bs l.
Proof.
  induction fs as [|[n s] fs IH]; intros bs l; destruct bs, l; cbn [map acc_all snd]; try tauto.
  rewrite IH. tauto.
Qed.

Theorem deserialize_accepts t : wf t = true -> forall s, matches t s = true -> dec_ok t s.
Proof.
  induction t using ty_ind'; intros Hwf s Hm old b v Ho Hb.
  all: destruct s; try discriminate Hm; cbn [matches] in Hm.
  all: assert (Gd : forall t', wf t' = true -> good false (vt t') (wt t'))
         by (intros; apply good_all; auto; discriminate).
  - apply Z.eqb_eq in Hm. subst. cbn [vt vt_des]. unfold bytes_deserialize.
    destruct (Z.eqb_spec (zlen b) n0) as [E|E]; cbn [negb].
    + split; [intros [= <-]; cbn; auto|]. destruct v; cbn; try tauto. intros [_ ->]. auto.
    + split; [discriminate|]. destruct v; cbn; try tauto; lia.
  - cbn [vt vt_des]. rewrite slot_des_val. destruct (Z.eqb_spec (zlen b) 8) as [E|E].
    + split; [intros [= <-]; cbn; auto|]. destruct v; cbn; try tauto. intros [_ ->]. auto.
    + split; [discriminate|]. destruct v; cbn; try tauto; lia.
  - cbn [vt vt_des]. rewrite boolean_des_val. destruct b as [|x [|y b]].
    + split; [discriminate|]. destruct v; cbn; try tauto; discriminate.
    + inversion Hb as [|? ? Hx _]; subst. unfold byte_ok in Hx. destruct (Z.gtb_spec x 1).
      * split; [discriminate|]. destruct v as [| |[]| |]; cbn; try tauto; intros [= ->]; lia.
      * split.
        -- intros [= <-]. cbn. destruct (Z.eqb_spec x 0); cbn; f_equal; lia.
        -- destruct v as [| |[]| |]; cbn; try tauto; intros [= ->]; reflexivity.
    + split; [discriminate|]. destruct v; cbn; try tauto; discriminate.
  - apply Z.eqb_eq in Hm. subst. cbn [wf] in Hwf. cbn [vt vt_des].
    destruct old as [| | |arr|]; cbn [wt] in Ho; try tauto.
    rewrite bitvector_des_val by (auto; lia). pose proof (le_val_bound b Hb) as Hv.
    destruct (Z.eqb_spec (zlen b) ((n0 + 7) / 8)) as [E|E].
    + split.
      * intros [= <-]. cbn [accepts]. split; auto. split.
        -- unfold zlen. rewrite bits_of_length. lia.
        -- rewrite bits_val_of. f_equal. f_equal. lia.
      * destruct v as [| | |l|]; cbn [accepts]; try tauto. intros (_ & Hl & Hbv). do 3 f_equal.
        rewrite <- (bits_of_val l) at 1. unfold zlen in Hl. replace (Z.to_nat n0) with (length l) by lia.
        rewrite Hbv. replace n0 with (Z.of_nat (length l)) by lia. symmetry. now apply bits_of_mod.
    + split; [discriminate|]. destruct v; cbn [accepts]; try tauto; lia.
  - cbn [vt vt_des]. split.
    + intros E. pose proof E as E0. unfold bitlist_deserialize in E0.
      destruct (_ =? _) in E0; [discriminate|]. cbv zeta in E0. destruct (_ >? _) in E0; [discriminate|].
      injection E0 as <-. cbn [accepts]. rewrite <- (bitlist_canonical _ _ _ Hb E) at 1.
      apply bitlist_serialize_le.
    + destruct v as [| | |l|]; cbn [accepts]; try tauto. intros ->. rewrite <- bitlist_serialize_le.
      apply bitlist_roundtrip.
  - cbn [wf] in Hwf. apply andb_true_iff in Hwf as [Hwf Hsz]. apply andb_true_iff in Hwf as [Hwf Hn].
    apply andb_true_iff in Hm as [Hn' Hm]. apply Z.eqb_eq in Hn'. subst n0.
    apply Z.ltb_lt in Hsz. apply Z.ltb_lt in Hn.
    pose proof (matches_size t Hwf s Hm) as Hss. unfold get_ssz_size in *.
    destruct old as [| | | |l0]; cbn [wt] in Ho; try tauto. destruct Ho as [Hl0 Ho].
    cbn [vt vt_des]. rewrite vector_des_true by auto.
    assert (Hcr : zlen b = n * vt_size (vt t) -> forall vs,
      (decode_all b (repeat (vt t) (length l0)) l0 (cr (vt_size (vt t)) 0 (length l0)) vs <->
       acc_all (repeat s (length l0)) (parts (repeat (sty_size s) (length l0)) b) vs)).
    { intros Hz vs. unfold parts. rewrite part_ranges_cr by lia. rewrite Hss.
      rewrite <- (map_repeat vt t). apply decode_all_acc; auto.
      - apply Forall2_repeat. exact (IHt Hwf s Hm).
      - rewrite map_repeat. now apply holds_repeat.
      - apply cr_in; try lia. unfold zlen in Hl0. nia. }
    split.
    + intros (Hz & vs & -> & Hd). cbn [accepts].
      assert (Lv : length vs = length l0).
      { apply decode_all_length in Hd. rewrite !repeat_length in Hd. destruct Hd as (_ & _ & Hd); auto. }
      apply Hcr in Hd; auto. rewrite <- Lv, acc_all_repeat in Hd. rewrite Hss.
      rewrite Hss in Hd. repeat split; auto. unfold zlen in *. lia.
    + destruct v as [| | | |vs]; cbn [accepts]; try tauto. intros (Hl & Hz & Hd). rewrite Hss in Hz.
      split; auto. exists vs. split; auto. apply Hcr; auto.
      replace (length l0) with (length vs) by (unfold zlen in *; lia). now apply acc_all_repeat.
  - cbn [wf] in Hwf. apply andb_true_iff in Hwf as [Hwf Hsz].
    apply andb_true_iff in Hm as [Hn' Hm]. apply Z.eqb_eq in Hn'. subst.
    pose proof (matches_variable t Hwf s Hm) as Hvar.
    apply Z.ltb_lt in Hsz.
    pose proof (matches_size t Hwf s Hm) as Hss. unfold get_ssz_size in *.
    replace (vt_size (vt t) =? 0) with false in Hvar by lia.
    cbn [vt vt_des]. rewrite (listf_des_true (vt t)) by (unfold vt_size in *; lia).
    assert (Hcr : forall n vs, zlen b = Z.of_nat n * vt_size (vt t) ->
      (decode_all b (repeat (vt t) n) (repeat (vt_default (vt t)) n) (cr (vt_size (vt t)) 0 n) vs <->
       acc_all (repeat s n) (parts (repeat (sty_size s) n) b) vs)).
    { intros n vs Hz. unfold parts. rewrite part_ranges_cr by lia. rewrite Hss.
      rewrite <- (map_repeat vt t). apply decode_all_acc; auto.
      - apply Forall2_repeat. exact (IHt Hwf s Hm).
      - rewrite map_repeat. apply Forall2_nth_repeat. eapply g_def. apply Gd; auto.
      - apply cr_in; lia. }
    split.
    + intros (n & vs & Hz & -> & Hd). cbn [accepts]. rewrite Hvar.
      assert (Lv : length vs = n).
      { apply decode_all_length in Hd. rewrite !repeat_length in Hd. destruct Hd as (_ & _ & Hd); auto. }
      apply Hcr in Hd; auto. subst n. rewrite acc_all_repeat in Hd. rewrite Hss in *.
      split; auto.
    + destruct v as [| | | |vs]; cbn [accepts]; try tauto. rewrite Hvar. intros (Hz & Hd). rewrite Hss in Hz.
      exists (length vs), vs. split; auto. split; auto. apply Hcr; auto. now apply acc_all_repeat.
  - cbn [wf] in Hwf. apply andb_true_iff in Hwf as [Hwf Hsz].
    apply andb_true_iff in Hm as [Hn' Hm]. apply Z.eqb_eq in Hn'. subst.
    pose proof (matches_variable t Hwf s Hm) as Hvar. rewrite Hsz in Hvar.
    apply Z.eqb_eq in Hsz. unfold get_ssz_size in *.
    cbn [vt vt_des]. rewrite listv_des_true by auto.
    assert (Hcr : forall n vs, (0 < n)%nat ->
      ((exists hi rs, ranges b (4 * Z.of_nat n) (repeat 0 n) 0 0 hi rs /\
        decode_all b (repeat (vt t) n) (repeat (vt_default (vt t)) n) rs vs) <->
       layout_ok (repeat 0 n) b /\ acc_all (repeat s n) (parts (repeat 0 n) b) vs)).
    { intros n vs Hn.
      assert (D : layout_ok (repeat 0 n) b ->
         (decode_all b (repeat (vt t) n) (repeat (vt_default (vt t)) n) (part_ranges (repeat 0 n) b 0) vs
          <-> acc_all (repeat s n) (parts (repeat 0 n) b) vs)).
      { intros (L1 & L2 & L3 & L4). rewrite <- (map_repeat vt t). apply decode_all_acc; auto.
        - apply Forall2_repeat. exact (IHt Hwf s Hm).
        - rewrite map_repeat. apply Forall2_nth_repeat. eapply g_def. apply Gd; auto.
        - apply layout_ranges_in; auto; try lia. clear; induction n; constructor; auto; lia. }
      assert (Hnn : Forall (fun s => 0 <= s) (repeat 0 n)) by (clear; induction n; constructor; auto; lia).
      pose proof (fixed_room_repeat0 n) as Hfr. rewrite <- Hfr.
      split.
      - intros (hi & rs & Hr & Hd). apply ranges_layout0 in Hr; auto; try lia.
        destruct Hr as (L & -> & _). split; auto. now apply D.
      - intros (L & Hd). eexists _, _. split; [apply ranges_layout0; auto; lia|]. now apply D. }
    split.
    + intros [[-> ->]|(n & hi & rs & vs & Hn & -> & Hr & Hd)]; cbn [accepts]; rewrite Hvar; [now left|right].
      assert (Lv : length vs = n).
      { apply decode_all_length in Hd. rewrite !repeat_length in Hd. destruct Hd as (_ & _ & Hd); auto. }
      destruct (proj1 (Hcr n vs Hn)) as [L Ha]; [eauto|]. subst n. rewrite acc_all_repeat in Ha.
      split; [destruct vs; [cbn in Hn; lia|discriminate]|]. auto.
    + destruct v as [| | | |vs]; cbn [accepts]; try tauto. rewrite Hvar.
      intros [[-> ->]|(Hne & L & Ha)]; [now left|right].
      assert (Hn : (0 < length vs)%nat) by (destruct vs; [easy|cbn; lia]).
      destruct (proj2 (Hcr (length vs) vs Hn)) as (hi & rs & Hr & Hd).
      { split; auto. now apply acc_all_repeat. }
      exists (length vs), hi, rs, vs. auto.
  - pose proof Hwf as Hwf0. apply wf_class in Hwf. destruct Hwf. apply all2b_Forall2 in Hm.
    assert (Gda : gooda false (map vt fs) (map wt fs)).
    { clear - cw_fields Gd. induction cw_fields; cbn [map]; constructor; auto. }
    apply (class_W_wt ci fs) in Ho. destruct old as [| | | |l0]; cbn [class_W] in Ho; try tauto.
    assert (Hne : map vt fs <> []) by (destruct fs; [easy|discriminate]).
    assert (Hde : ci_des ci = seq 0 (length (map vt fs))) by now rewrite map_length.
    assert (Hsm : vt_fixed (map vt fs) < 2 ^ 32) by now rewrite vt_fixed_fixed_size.
    cbn [vt vt_des].
    rewrite (class_des_true false ci (map vt fs) (map wt fs) Gda Hne Hde Hsm b l0 v Hb)
      by (pose proof (Forall2_len _ _ _ Ho) as L; rewrite !map_length in *; auto).
    assert (Hsizes : map (fun f => sty_size (snd f)) fields = map vt_size (map vt fs)).
    { clear - Hm cw_fields. induction Hm as [|t0 g fs gs Hg _ IH]; auto. inversion cw_fields; subst.
      cbn [map]. f_equal; auto. now apply matches_size. }
    assert (Hpos : 0 < vt_fixed (map vt fs)) by (eapply vt_fixed_pos; eauto).
    assert (Hnn : Forall (fun s => 0 <= s) (map vt_size (map vt fs))).
    { rewrite map_map. clear - cw_fields Gd. induction cw_fields; cbn [map]; constructor; auto.
      eapply g_size. apply Gd; auto. }
    assert (D : forall vs, layout_ok (map vt_size (map vt fs)) b ->
       (decode_all b (map vt fs) l0 (part_ranges (map vt_size (map vt fs)) b 0) vs
        <-> acc_all (map snd fields) (parts (map vt_size (map vt fs)) b) vs)).
    { intros vs (L1 & L2 & L3 & L4). apply decode_all_acc; auto.
      - clear - H Hm cw_fields. revert H cw_fields. induction Hm as [|t0 g fs gs Hg _ IH]; intros Ha Hw;
          cbn [map]; constructor; inversion Ha; inversion Hw; subst; auto.
      - apply layout_ranges_in; auto; lia. }
    rewrite <- fixed_room_vt in *. split.
    + intros (obj' & hi & rs & -> & Hr & Hd). apply ranges_layout0 in Hr; auto.
      destruct Hr as (L & -> & _). cbn [accepts]. rewrite Hsizes. split; auto.
      rewrite go_acc_all. now apply D.
    + destruct v as [| | | |vs]; cbn [accepts]; try tauto. rewrite Hsizes. intros (L & Ha).
      rewrite go_acc_all in Ha. eexists vs, _, _. split; auto.
      split; [apply ranges_layout0; auto|]. now apply D.
Qed.
