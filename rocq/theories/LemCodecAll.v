(** Lists of variable-size parts, then all classes. *)
From Coq Require Import ZArith String List Bool Lia.
From Coq Require Import ZifyBool ZifyNat.
From Verif Require Import Base SpecSSZ ModelSSZ SpecObj LemBase LemBits LemTy LemSer LemDes LemCodec LemCodecSeq.
Import ListNotations.
Open Scope Z_scope.
Ltac Zify.zify_post_hook ::= Z.div_mod_to_equations.

Section ListV.
Variables (safe : bool) (p : vtable) (W : val -> Prop).
Hypothesis G : good safe p W.
Hypothesis Hs : vt_size p = 0.
Definition listv_vt : vtable :=
  {| vt_size := 0; vt_default := VSeq [];
     vt_ser := listv_serialize p; vt_des := listv_deserialize p |}.

Notation dp := (vt_default p).

Lemma listv_des_loop_true b F : bytes_ok b -> F <= zlen b ->
  forall fuel it lo arr arr', 0 < it <= F -> 0 < lo -> F - it <= Z.of_nat fuel ->
  (listv_des_loop fuel p b F it lo arr = Ok (true, arr') <->
   exists n hi rs v vs, F = it + 4 * Z.of_nat n /\ arr' = arr ++ v :: vs /\
     ranges b F (repeat 0 n) it lo hi rs /\
     decodes b p dp (lo, hi) v /\ decode_all b (repeat p n) (repeat dp n) rs vs).
Proof.
  intros Hb HF. induction fuel as [|fuel IH]; intros it lo arr arr' Hit Hlo Hfu; cbn [listv_des_loop].
  - replace (it =? F) with true by lia. split.
    + intros E. apply bind_ok in E as (s & Es & E). apply bind_ok in E as ([ok v] & Ev & E).
      destruct ok; [|discriminate]. injection E as <-.
      exists 0%nat, (zlen b), [], v, []. repeat split; try lia; [constructor|exists s; auto].
    + intros (n & hi & rs & v & vs & Hn & -> & Hr & (s & Es & Ev) & Hd).
      assert (n = 0)%nat by lia. subst n. cbn [repeat] in *. inversion Hr; subst.
      destruct vs; [|destruct Hd]. cbn [fst snd] in Es. rewrite Es. cbn [bind]. rewrite Ev. reflexivity.
  - destruct (Z.eqb_spec it F) as [E0|E0].
    { split.
      + intros E. apply bind_ok in E as (s & Es & E). apply bind_ok in E as ([ok v] & Ev & E).
        destruct ok; [|discriminate]. injection E as <-.
        exists 0%nat, (zlen b), [], v, []. repeat split; try lia; [constructor|exists s; auto].
      + intros (n & hi & rs & v & vs & Hn & -> & Hr & (s & Es & Ev) & Hd).
        assert (n = 0)%nat by lia. subst n. cbn [repeat] in *. inversion Hr; subst.
        destruct vs; [|destruct Hd]. cbn [fst snd] in Es. rewrite Es. cbn [bind]. rewrite Ev. reflexivity. }
    unfold BYTES_PER_LENGTH_OFFSET.
    destruct (Z.gtb_spec (it + 4) F) as [Hgt|Hle].
    { split; [discriminate|]. intros (n & hi & rs & v & vs & Hn & _). destruct n; lia. }
    split.
    + intros E. apply bind_ok in E as (w & Ew & E).
      destruct (Z.ltb_spec (le_val w) lo); [discriminate|].
      destruct (Z.ltb_spec (zlen b) (le_val w)); [discriminate|].
      apply bind_ok in E as (s & Es & E). apply bind_ok in E as ([ok v] & Ev & E).
      destruct ok; [|discriminate].
      apply IH in E; [|lia|lia|lia].
      destruct E as (n & hi & rs & v' & vs & Hn & -> & Hr & Hd' & Hd).
      exists (S n), (le_val w), ((le_val w, hi) :: rs), v, (v' :: vs).
      split; [lia|]. split; [now rewrite <- app_assoc|]. cbn [repeat]. split.
      { apply r_var; auto. lia. }
      split; [exists s; auto|]. cbn [decode_all]. auto.
    + intros (n & hi & rs & v & vs & Hn & -> & Hr & (s & Es & Ev) & Hd).
      destruct n as [|n]; [lia|]. cbn [repeat] in *.
      inversion Hr as [|? ? ? ? ? ? Hc|? ? ? hi' rs' w Ew H1 H2 H3 H4]; subst; [easy|].
      cbn [fst snd] in Es. destruct vs as [|v' vs]; [destruct Hd|]. destruct Hd as [Hd' Hd].
      rewrite Ew. cbn [bind].
      replace (le_val w <? lo) with false by lia. replace (zlen b <? le_val w) with false by lia.
      rewrite Es. cbn [bind]. rewrite Ev. cbn [bind]. apply IH; [lia|lia|lia|].
      exists n, hi', rs', v', vs. split; [lia|]. split; [now rewrite <- app_assoc|]. auto.
Qed.

Lemma listv_des_true o b v : bytes_ok b ->
  (listv_deserialize p o b = Ok (true, v) <->
   (b = [] /\ v = VSeq []) \/
   exists n hi rs vs, (0 < n)%nat /\ v = VSeq vs /\
     ranges b (4 * Z.of_nat n) (repeat 0 n) 0 0 hi rs /\
     decode_all b (repeat p n) (repeat dp n) rs vs).
Proof.
  intros Hb. unfold listv_deserialize, BYTES_PER_LENGTH_OFFSET. pose proof (zlen_nonneg b) as Hz.
  destruct (Z.eqb_spec (zlen b) 0) as [E|E].
  { apply zlen_0 in E. subst b. split.
    - intros [= <-]. left; auto.
    - intros [[_ ->]|(n & hi & rs & vs & Hn & -> & Hr & _)]; auto.
      destruct n; [lia|]. cbn [repeat] in Hr. inversion Hr; subst; [easy|].
      apply slice_inv in H0. rewrite zlen_nil in *. lia. }
  destruct (Z.ltb_spec (zlen b) 4) as [H4|H4].
  { split; [discriminate|]. intros [[-> _]|(n & hi & rs & vs & Hn & -> & Hr & _)].
    - now rewrite zlen_nil in E.
    - destruct n; [lia|]. cbn [repeat] in Hr. inversion Hr; subst; [easy|].
      apply slice_inv in H0. lia. }
  destruct (slice b 0 4) as [w| |] eqn:Ew.
  2,3: rewrite slice_ok in Ew by lia; discriminate.
  cbn [bind]. pose proof (slice_nonneg_read b 0 w Ew Hb) as Hw.
  assert (INV : forall n hi rs, (0 < n)%nat -> ranges b (4 * Z.of_nat n) (repeat 0 n) 0 0 hi rs ->
     le_val w = 4 * Z.of_nat n /\ le_val w <= zlen b /\ hi = le_val w /\
     exists n' hi' rs', n = S n' /\ rs = (hi, hi') :: rs' /\
       ranges b (4 * Z.of_nat n) (repeat 0 n') 4 (le_val w) hi' rs').
  { intros n hi rs Hn Hr. destruct n as [|n']; [lia|]. cbn [repeat] in Hr.
    inversion Hr as [|? ? ? ? ? ? Hc|? ? ? hi' rs' w' Ew' H1 H2 H3 H5]; subst; [easy|].
    cbn [Z.add] in *. assert (w' = w) by congruence. subst w'.
    split; [auto|]. split; auto. split; auto. exists n', hi', rs'. auto. }
  destruct (Z.ltb_spec (le_val w) 4) as [L4|L4].
  { split; [discriminate|]. intros [[-> _]|(n & hi & rs & vs & Hn & -> & Hr & _)].
    - now rewrite zlen_nil in E.
    - apply INV in Hr; auto. lia. }
  destruct (Z.ltb_spec (zlen b) (le_val w)) as [Lz|Lz].
  { split; [discriminate|]. intros [[-> _]|(n & hi & rs & vs & Hn & -> & Hr & _)].
    - now rewrite zlen_nil in E.
    - apply INV in Hr; auto. lia. }
  pose proof (fun a => listv_des_loop_true b (le_val w) Hb Lz (length b) 4 (le_val w) [] a
                 ltac:(lia) ltac:(lia) ltac:(unfold zlen in *; lia)) as T.
  split.
  - intros Ed. apply bind_ok in Ed as ([ok a] & Ea & [= -> <-]). apply T in Ea.
    destruct Ea as (n & hi & rs & v & vs & Hn & -> & Hr & Hd1 & Hd).
    right. exists (S n), (le_val w), ((le_val w, hi) :: rs), (v :: vs). split; [lia|].
    split; [reflexivity|]. cbn [repeat decode_all]. split; auto.
    replace (4 * Z.of_nat (S n)) with (le_val w) by lia. apply r_var; auto; lia.
  - intros [[-> _]|(n & hi & rs & vs & Hn & -> & Hr & Hd)].
    { now rewrite zlen_nil in E. }
    apply INV in Hr; auto. destruct Hr as (Hv & _ & -> & n' & hi' & rs' & -> & -> & Hr).
    cbn [repeat decode_all] in Hd. destruct vs as [|v vs]; [tauto|]. destruct Hd as [Hd1 Hd].
    assert (E2 : listv_des_loop (length b) p b (le_val w) 4 (le_val w) [] = Ok (true, v :: vs)).
    { apply T. exists n', hi', rs', v, vs. split; [lia|]. split; auto. rewrite Hv at 1. auto. }
    rewrite E2. reflexivity.
Qed.

Lemma listv_des_loop_ok b F : bytes_ok b -> F <= zlen b -> forall fuel it lo arr,
  0 < it <= F -> 0 < lo <= zlen b -> F - it <= Z.of_nat fuel -> Forall W arr ->
  match listv_des_loop fuel p b F it lo arr with
  | Ok (_, arr') => Forall W arr'
  | UB => safe = false
  | Throw => False
  end.
Proof.
  intros Hb HF. induction fuel as [|fuel IH]; intros it lo arr Hit Hlo Hfu Ha; cbn [listv_des_loop].
  all: assert (LAST : forall lo j, 0 <= lo <= j -> j <= zlen b ->
       match (let* s := slice b lo j in vt_des p (vt_default p) s) with
       | Ok (_, v) => W v | UB => safe = false | Throw => False end).
  1,3: intros lo' j Hlo' Hj; destruct (slice b lo' j) as [s| |] eqn:Es;
    [|rewrite slice_ok in Es by lia; discriminate|rewrite slice_ok in Es by lia; discriminate];
    cbn [bind]; apply (g_res _ _ _ G); [apply (g_def _ _ _ G)|eapply slice_bytes_ok; eauto].
  - replace (it =? F) with true by lia.
    specialize (LAST lo (zlen b) ltac:(lia) ltac:(lia)).
    destruct (slice b lo (zlen b)) as [s| |]; cbn [bind] in *; auto.
    destruct (vt_des p (vt_default p) s) as [[r v]| |]; cbn [bind]; auto.
    destruct r; auto. apply Forall_app; auto.
  - destruct (Z.eqb_spec it F).
    { specialize (LAST lo (zlen b) ltac:(lia) ltac:(lia)).
      destruct (slice b lo (zlen b)) as [s| |]; cbn [bind] in *; auto.
      destruct (vt_des p (vt_default p) s) as [[r v]| |]; cbn [bind]; auto.
      destruct r; auto. apply Forall_app; auto. }
    unfold BYTES_PER_LENGTH_OFFSET. destruct (Z.gtb_spec (it + 4) F); auto.
    destruct (slice b it (it + 4)) as [w| |] eqn:Ew.
    2,3: rewrite slice_ok in Ew by lia; discriminate.
    cbn [bind]. destruct (Z.ltb_spec (le_val w) lo); auto.
    destruct (Z.ltb_spec (zlen b) (le_val w)); auto.
    specialize (LAST lo (le_val w) ltac:(lia) ltac:(lia)).
    destruct (slice b lo (le_val w)) as [s| |]; cbn [bind] in *; auto.
    destruct (vt_des p (vt_default p) s) as [[r v]| |]; cbn [bind]; auto.
    destruct r; auto. apply IH; try lia. apply Forall_app; auto.
Qed.

Definition lv_es (l : list val) : list part := map (fun v => (true, vt_ser p v)) l.
Lemma lv_es_snd l : map snd (lv_es l) = sers (repeat p (length l)) l.
Proof. unfold lv_es. rewrite map_map, sers_repeat. reflexivity. Qed.
Lemma lv_es_fits l : Forall2 fits (repeat 0 (length l)) (lv_es l).
Proof. induction l; cbn; constructor; auto. split; [reflexivity|easy]. Qed.
Lemma lv_es_bytes_ok l : Forall W l -> Forall (fun e : part => bytes_ok (snd e)) (lv_es l).
Proof. induction 1; cbn; constructor; auto. cbn. eapply g_ok; eauto. Qed.
Lemma zeros_nonneg n : Forall (fun s => 0 <= s) (repeat 0 n).
Proof. apply Forall_forall. intros x Hx. apply repeat_spec in Hx. lia. Qed.

Lemma listv_ser_ok l : Forall W l -> bytes_ok (listv_serialize p (VSeq l)).
Proof.
  intros Hw. rewrite listv_serialize_series, ssz_series_fx. apply Forall_app.
  split; [apply fx_bytes_ok|apply vr_bytes_ok]; now apply lv_es_bytes_ok.
Qed.

Lemma good_listv : good safe listv_vt (list_W W).
Proof.
  constructor; cbn [listv_vt vt_size vt_default vt_ser vt_des]; try lia.
  - constructor.
  - intros [| | | |l]; cbn [list_W]; try tauto. apply listv_ser_ok.
  - intros [| | | |l] [| | | |o]; cbn [list_W]; try tauto. intros Hw Ho Hlt.
    apply listv_des_true. { now apply listv_ser_ok. }
    destruct l as [|v0 l0]; [left; auto|]. set (l := v0 :: l0) in *. right.
    destruct (series_ranges (repeat 0 (length l)) (lv_es l) (listv_serialize p (VSeq l)))
      as (hi & rs & Hr & Hsl); auto.
    { apply lv_es_fits. } { apply zeros_nonneg. } { apply listv_serialize_series. }
    unfold lv_es in Hr at 1. rewrite fixed_len_true in Hr.
    exists (length l), hi, rs, l. split; [unfold l; cbn; lia|]. split; auto. split; auto.
    rewrite lv_es_snd in Hsl.
    eapply decode_all_rt; [exact Hlt|apply gooda_repeat; eauto| | |exact Hsl].
    + apply Forall2_nth_repeat. eapply g_def; eauto.
    + now apply holds_repeat.
  - intros o1 o2 b v _ _ Hb E. apply listv_des_true in E; auto. now apply listv_des_true.
  - intros o b _ Hb. unfold listv_deserialize, BYTES_PER_LENGTH_OFFSET.
    pose proof (zlen_nonneg b).
    destruct (Z.eqb_spec (zlen b) 0); [constructor|].
    destruct (Z.ltb_spec (zlen b) 4); [constructor|].
    destruct (slice b 0 4) as [w| |] eqn:Ew.
    2,3: rewrite slice_ok in Ew by lia; discriminate.
    cbn [bind]. destruct (Z.ltb_spec (le_val w) 4); [constructor|].
    destruct (Z.ltb_spec (zlen b) (le_val w)); [constructor|].
    pose proof (listv_des_loop_ok b (le_val w) Hb ltac:(lia) (length b) 4 (le_val w) []
                  ltac:(lia) ltac:(lia) ltac:(unfold zlen in *; lia) ltac:(constructor)) as R.
    destruct (listv_des_loop _ _ _ _ _ _ _) as [[r a]| |]; cbn [bind res_ok]; auto.
Qed.
Lemma canonical_listv : canonical p W -> canonical listv_vt (list_W W).
Proof.
  intros Hc o b v _ Hb _ E. cbn [listv_vt vt_ser vt_des] in *. apply listv_des_true in E; auto.
  destruct E as [[-> ->]|(n & hi & rs & vs & Hn & -> & Hr & Hd)]; auto.
  pose proof (decode_all_length _ _ _ _ _ Hd) as (_ & _ & Lv). rewrite repeat_length in Lv.
  assert (Sl : slices b rs (sers (repeat p n) vs)).
  { eapply decode_all_canon; [exact Hb|apply canonical_repeat; exact Hc| |exact Hd|].
    - apply Forall2_nth_repeat. eapply g_def; eauto.
    - apply (ranges_sizes b (4 * Z.of_nat n) _ 0 0 hi). 
      replace (map vt_size (repeat p n)) with (repeat 0 n); auto.
      clear - Hs. induction n; cbn; congruence. }
  subst n. rewrite <- lv_es_snd in Sl. rewrite listv_serialize_series, ssz_series_fx.
  fold (lv_es vs). unfold lv_es at 2. rewrite fixed_len_true.
  pose proof (zlen_nonneg b).
  destruct (ranges_series _ _ _ _ _ _ _ Hb Hr (zeros_nonneg _) ltac:(lia) (lv_es vs)) as [R1 R2]; auto.
  { pose proof (lv_es_fits vs) as Hfit. clear - Hfit. induction Hfit; constructor; auto. apply H. }
  pose proof (ranges_hi _ _ _ _ _ _ Hr) as Hhi.
  replace (existsb _ _) with true in Hhi by (destruct (length vs); [lia|reflexivity]).
  subst hi. specialize (R1 ltac:(lia)). specialize (R2 ltac:(lia)).
  unfold lv_es in R1 at 1. rewrite fixed_len_true in R1. cbn [Z.add] in R1.
  fold (zlen vs) in R1, R2.
  pose proof (slice_concat _ _ _ _ _ _ R1 R2) as C. rewrite slice_full in C. now injection C.
Qed.
End ListV.

(** ** All classes *)
Lemma vt_fixed_fixed_size fs : vt_fixed (map vt fs) = fixed_size fs.
Proof. unfold vt_fixed, fixed_size. rewrite map_map. reflexivity. Qed.
Lemma existsb_map {A B} (f : A -> B) g l : existsb g (map f l) = existsb (fun x => g (f x)) l.
Proof. induction l; cbn; auto. now rewrite IHl. Qed.
Lemma good_congr s p W W' : (forall v, W v <-> W' v) -> good s p W -> good s p W'.
Proof.
  intros E [H1 H2 H3 H4 H5 H6 H7]. constructor; auto.
  - now apply E.
  - intros v Hv. apply H3. now apply E.
  - intros v Hv. apply H4. now apply E.
  - intros v o Hv Ho. apply H5; now apply E.
  - intros o1 o2 b v Ho1 Ho2. apply H6; now apply E.
  - intros o b Ho Hb. apply E in Ho. specialize (H7 o b Ho Hb). unfold res_ok in *.
    destruct (vt_des p o b) as [[r v]| |]; auto. now apply E.
Qed.
Lemma canonical_congr p W W' : (forall v, W v <-> W' v) -> canonical p W -> canonical p W'.
Proof. intros E C old b v Ho. apply C. now apply E. Qed.
Lemma class_W_wt ci fs v : class_W (map wt fs) v <-> wt (TClass ci fs) v.
Proof.
  destruct v; cbn [class_W wt]; try tauto. rewrite all2_Forall2. split.
  - revert l. induction fs; cbn [map]; intros l H; inversion H; subst; constructor; auto.
  - induction 1; cbn [map]; constructor; auto.
Qed.

Theorem good_all t : wf t = true -> forall s, (s = true -> has_bitlist t = false) ->
  good s (vt t) (wt t).
Proof.
  induction t using ty_ind'; intros Hwf s Hb; cbn [wf] in Hwf.
  - apply good_bytes. lia.
  - apply good_slot.
  - apply good_boolean.
  - apply good_bitvector. lia.
  - destruct s; [specialize (Hb eq_refl); discriminate|]. apply good_bitlist.
  - apply andb_true_iff in Hwf as [Hwf Hsz]. apply andb_true_iff in Hwf as [Hwf Hn].
    apply (good_congr s _ (vector_W (wt t) n)).
    + intros []; cbn; tauto.
    + apply good_vector; [apply IHt; auto|lia|first [apply Z.ltb_lt; exact Hsz|apply Z.eqb_eq; exact Hsz]].
  - apply andb_true_iff in Hwf as [Hwf Hsz].
    apply (good_congr s _ (list_W (wt t))).
    + intros []; cbn; tauto.
    + apply good_listf; [apply IHt; auto|first [apply Z.ltb_lt; exact Hsz|apply Z.eqb_eq; exact Hsz]].
  - apply andb_true_iff in Hwf as [Hwf Hsz].
    apply (good_congr s _ (list_W (wt t))).
    + intros []; cbn; tauto.
    + apply good_listv; [apply IHt; auto].
  - change (wf (TClass ci fs) = true) in Hwf. apply wf_class in Hwf. destruct Hwf.
    apply (good_congr s _ (class_W (map wt fs))).
    + intros v. apply class_W_wt.
    + apply good_class.
      * cbn [has_bitlist] in Hb. clear - H cw_fields Hb. induction H; cbn [map]; constructor.
        -- inversion cw_fields; subst. apply H; auto. intros Es. specialize (Hb Es).
           cbn [existsb] in Hb. now apply orb_false_iff in Hb.
        -- inversion cw_fields; subst. apply IHForall; auto. intros Es. specialize (Hb Es).
           cbn [existsb] in Hb. now apply orb_false_iff in Hb.
      * destruct fs; [easy|discriminate].
      * now rewrite map_length.
      * now rewrite map_length.
      * rewrite cw_size, existsb_map, vt_fixed_fixed_size. reflexivity.
      * now rewrite vt_fixed_fixed_size.
Qed.

Theorem canonical_all t : wf t = true -> no_padding t = true -> canonical (vt t) (wt t).
Proof.
  induction t using ty_ind'; intros Hwf Hnp.
  all: try (assert (G : forall t', wf t' = true -> good false (vt t') (wt t'))
             by (intros; apply good_all; auto; discriminate)).
  all: cbn [wf no_padding] in Hwf, Hnp.
  - apply canonical_bytes.
  - apply canonical_slot.
  - apply canonical_boolean.
  - apply canonical_bitvector; lia.
  - apply canonical_bitlist.
  - apply andb_true_iff in Hwf as [Hwf Hsz]. apply andb_true_iff in Hwf as [Hwf Hn].
    apply (canonical_congr _ (vector_W (wt t) n)).
    + intros []; cbn; tauto.
    + eapply canonical_vector; eauto; [first [apply Z.ltb_lt; exact Hsz|apply Z.eqb_eq; exact Hsz]].
  - apply andb_true_iff in Hwf as [Hwf Hsz].
    apply (canonical_congr _ (list_W (wt t))).
    + intros []; cbn; tauto.
    + eapply canonical_listf; eauto. first [apply Z.ltb_lt; exact Hsz|apply Z.eqb_eq; exact Hsz].
  - apply andb_true_iff in Hwf as [Hwf Hsz].
    apply (canonical_congr _ (list_W (wt t))).
    + intros []; cbn; tauto.
    + eapply canonical_listv; eauto. first [apply Z.ltb_lt; exact Hsz|apply Z.eqb_eq; exact Hsz].
  - change (wf (TClass ci fs) = true) in Hwf. apply wf_class in Hwf. destruct Hwf.
    apply (canonical_congr _ (class_W (map wt fs))).
    + intros v. apply class_W_wt.
    + apply canonical_class with (safe := false).
      * clear - cw_fields G. induction cw_fields; cbn [map]; constructor; auto.
      * destruct fs; [easy|discriminate].
      * now rewrite map_length.
      * now rewrite map_length.
      * rewrite cw_size, existsb_map, vt_fixed_fixed_size. reflexivity.
      * now rewrite vt_fixed_fixed_size.
      * clear - H cw_fields Hnp. induction H; cbn [map]; constructor;
          cbn [forallb] in Hnp; apply andb_true_iff in Hnp as [? ?]; inversion cw_fields; subst; auto.
Qed.
