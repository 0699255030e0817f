(** deserialize executes undefined behaviour exactly on [SpecUndef.undefined]. *)
From Coq Require Import ZArith String List Bool Lia Sorting.Sorted.
From Coq Require Import ZifyBool ZifyNat.
From Verif Require Import SpecClasses Base SpecSSZ SpecWire SpecUndef ModelSSZ SpecObj LemBase LemBits LemTy LemSer LemDes LemCodec
  LemCodecSeq LemCodecAll LemMatch LemWire.
Import ListNotations.
Open Scope Z_scope.
Ltac Zify.zify_post_hook ::= Z.div_mod_to_equations.

Definition und_ok (t : ty) (s : sty) : Prop :=
  forall old b, wt t old -> bytes_ok b -> (vt_des (vt t) old b = UB <-> undefined s b).
Definition acc (s : sty) (b : list Z) : Prop := exists v, accepts s b v.

(** ** Fixed-size classes *)
Lemma fixed_no_bitlist t : wf t = true -> get_ssz_size t <> 0 -> has_bitlist t = false.
Proof.
  unfold get_ssz_size. induction t using ty_ind'; intros Hwf Hs; cbn [has_bitlist].
  1-4: reflexivity.
  - exfalso. apply Hs. reflexivity.
  - cbn [wf] in Hwf. apply andb_true_iff in Hwf as [Hwf Hsz]. apply andb_true_iff in Hwf as [Hwf Hn].
    apply IHt; auto. unfold get_ssz_size in *. lia.
  - exfalso. apply Hs. reflexivity.
  - exfalso. apply Hs. reflexivity.
  - apply wf_class in Hwf. destruct Hwf. cbn [vt vt_size] in Hs. rewrite cw_size in Hs.
    destruct (existsb (fun t => get_ssz_size t =? 0) fs) eqn:Ex; [easy|]. clear - H cw_fields Ex.
    revert Ex cw_fields. induction H as [|t fs Ht _ IH]; intros Ex Hw; auto. cbn [existsb] in *.
    apply orb_false_iff in Ex as [Ex1 Ex2]. inversion Hw; subst. rewrite Ht, IH; auto.
    unfold get_ssz_size in *. lia.
Qed.
Lemma fixed_defined t old b : wf t = true -> get_ssz_size t <> 0 -> wt t old -> bytes_ok b -> vt_des (vt t) old b <> UB.
Proof.
  intros Hwf Hs Ho Hb E. pose proof (g_res _ _ _ (good_all t Hwf true (fun _ => fixed_no_bitlist t Hwf Hs)) old b Ho Hb) as R.
  unfold res_ok in R. rewrite E in R. discriminate R.
Qed.
Lemma not_throw t old b : wf t = true -> wt t old -> bytes_ok b -> vt_des (vt t) old b <> Throw.
Proof.
  intros Hwf Ho Hb E. pose proof (g_res _ _ _ (good_all t Hwf false ltac:(discriminate)) old b Ho Hb) as R.
  unfold res_ok in R. now rewrite E in R.
Qed.

(** ** The loop over the parts *)
Inductive fails (b : list Z) (F : Z) : list sty -> Z -> Z -> option sty -> Prop :=
| f_end it lo p : undefined p (bytes_at b lo (zlen b)) -> fails b F [] it lo (Some p)
| f_fix s r it lo last : sty_size s <> 0 -> it + sty_size s <= zlen b -> acc s (bytes_at b it (it + sty_size s)) ->
    fails b F r (it + sty_size s) lo last -> fails b F (s :: r) it lo last
| f_now s r it lo p : sty_size s = 0 -> it + 4 <= zlen b -> lo <= u32_at b it <= zlen b ->
    undefined p (bytes_at b lo (u32_at b it)) -> fails b F (s :: r) it lo (Some p)
| f_var s r it lo last : sty_size s = 0 -> it + 4 <= zlen b -> lo <= u32_at b it <= zlen b ->
    match last with None => u32_at b it = F | Some p => acc p (bytes_at b lo (u32_at b it)) end ->
    fails b F r (it + 4) (u32_at b it) (Some s) -> fails b F (s :: r) it lo last.

Lemma call_facts t s ts k o b i j : wf t = true -> matches t s = true -> und_ok t s -> bytes_ok b ->
  holds (map wt ts) o -> nth_error ts k = Some t -> 0 <= i <= j -> j <= zlen b ->
  (call_des (vt t) k o b i j = UB <-> undefined s (bytes_at b i j)) /\
  ((exists o', call_des (vt t) k o b i j = Ok (true, o')) <-> acc s (bytes_at b i j)) /\
  (call_des (vt t) k o b i j <> Throw) /\
  (forall r o', call_des (vt t) k o b i j = Ok (r, o') -> holds (map wt ts) o').
Proof.
  intros Hwf Hm Hu Hb Ho Hk Hij Hj. unfold call_des. rewrite slice_bytes_at by lia. cbn [bind].
  assert (Hs : bytes_ok (bytes_at b i j)) by now apply bytes_at_ok.
  assert (Hn : wt t (nth k o (vt_default (vt t)))).
  { clear - Ho Hk. revert k Hk. remember (map wt ts) as Ws. revert ts HeqWs. induction Ho as [|W y Ws ys Hy Hys IH]; intros [|t0 ts] E [|k] Hk; try discriminate; cbn in *; injection E as -> ->.
    - now injection Hk as ->.
    - eapply IH; eauto. }
  pose proof (Hu _ _ Hn Hs) as HU. pose proof (deserialize_accepts t Hwf s Hm) as HA.
  pose proof (not_throw t _ _ Hwf Hn Hs) as HT.
  assert (HP := fun r v => good_pres _ _ _ _ _ r v (good_all t Hwf false ltac:(discriminate)) Hn Hs).
  destruct (vt_des (vt t) (nth k o (vt_default (vt t))) (bytes_at b i j)) as [[r v]| |] eqn:E; cbn [bind].
  - split; [rewrite <- HU; split; discriminate|]. split; [|split; [discriminate|]].
    + unfold acc. split.
      * intros (o' & [= -> _]). exists v. apply (HA _ _ _ Hn Hs). exact E.
      * intros (v' & A). apply (HA _ _ _ Hn Hs) in A. rewrite E in A. injection A as -> ->. eauto.
    + intros r' o' [= <- <-]. specialize (HP r v eq_refl). clear - Ho Hk HP. revert k Hk. remember (map wt ts) as Ws. revert ts HeqWs.
      induction Ho as [|W y Ws ys Hy Hys IH]; intros [|t0 ts] E [|k] Hk; try discriminate; cbn in *; injection E as -> ->.
      * injection Hk as ->. constructor; auto.
      * constructor; auto. eapply IH; eauto.
  - tauto.
  - split; [rewrite <- HU; tauto|]. split; [|split; discriminate]. split.
    + intros (o' & X). discriminate X.
    + intros (v' & A). apply (HA _ _ _ Hn Hs) in A. congruence.
Qed.

Lemma skipn_nth {A} k (l : list A) x r : skipn k l = x :: r -> nth_error l k = Some x /\ skipn (S k) l = r.
Proof.
  revert l. induction k; intros [|y l] E; cbn in *; try discriminate.
  - injection E as -> ->. auto.
  - auto.
Qed.
Lemma skipn_cons {A} k (l : list A) x r : skipn k l = x :: r -> skipn (S k) l = r.
Proof. intros E. exact (proj2 (skipn_nth _ _ _ _ E)). Qed.

Lemma loop_ub b F ts : bytes_ok b -> 0 < F -> Forall (fun t => wf t = true) ts ->
  forall qs rs, Forall2 (fun t s => matches t s = true /\ und_ok t s) qs rs ->
  forall k, skipn k ts = qs -> forall it lo last lastS o, 0 <= it <= zlen b -> holds (map wt ts) o ->
  match last, lastS with
  | None, None => lo = 0
  | Some (kp, pp), Some s => exists t, nth_error ts kp = Some t /\ pp = vt t /\ matches t s = true /\ und_ok t s /\ 0 < lo <= zlen b
  | _, _ => False
  end ->
  (deserialize_loop b F (number k (map vt qs)) it lo last o = UB <-> fails b F rs it lo lastS).
Proof.
  intros Hb HF Hw qs rs HQ. induction HQ as [|t s qs rs [Hm Hu] HQ IH]; intros k Hk it lo last lastS o Hit Ho Hl.
  - cbn [map]. change (number k []) with (@nil (nat * vtable)). cbn [deserialize_loop].
    destruct last as [[kp pp]|], lastS as [p|]; try tauto.
    + destruct Hl as (t & Ht & -> & Hmt & Hut & Hlo). replace (lo =? 0) with false by lia.
      assert (Hwt : wf t = true) by (eapply Forall_forall in Hw; [exact Hw|eapply nth_error_In; eauto]).
      destruct (call_facts t p ts kp o b lo (zlen b) Hwt Hmt Hut Hb Ho Ht) as (CU & _); try lia.
      rewrite CU. split; [intros; now constructor|]. intros X; inversion X; auto.
    + subst lo. cbn [Z.eqb]. split; [discriminate|inversion 1].
  - cbn [map]. rewrite number_cons. cbn [deserialize_loop].
    destruct (skipn_nth _ _ _ _ Hk) as [Hkt Hk'].
    assert (Hwt : wf t = true) by (eapply Forall_forall in Hw; [exact Hw|eapply nth_error_In; eauto]).
    pose proof (matches_size t Hwt s Hm) as Hsz. unfold get_ssz_size in Hsz. rewrite <- Hsz.
    pose proof (g_size _ _ _ (good_all t Hwt false ltac:(discriminate))) as Hs0. rewrite <- Hsz in Hs0.
    destruct (Z.eqb_spec (sty_size s) 0) as [Hz|Hz]; cbn [negb].
    + unfold BYTES_PER_LENGTH_OFFSET. destruct (Z.ltb_spec (zlen b - it) 4) as [Hsh|Hsh].
      { split; [discriminate|]. inversion 1; subst; lia. }
      rewrite slice_bytes_at by lia. cbn [bind]. fold (u32_at b it). pose proof (u32_at_nonneg b it Hb) as Hn.
      destruct (Z.ltb_spec (zlen b) (u32_at b it)) as [Hov|Hin].
      { split; [discriminate|]. inversion 1; subst; lia. }
      destruct last as [[kp pp]|], lastS as [p|]; try tauto.
      * destruct Hl as (tp & Htp & -> & Hmt & Hut & Hlo). replace (lo =? 0) with false by lia. cbn [negb].
        destruct (Z.ltb_spec (u32_at b it) lo) as [Hdec|Hinc].
        { split; [discriminate|]. inversion 1; subst; lia. }
        assert (Hwp : wf tp = true) by (eapply Forall_forall in Hw; [exact Hw|eapply nth_error_In; eauto]).
        destruct (call_facts tp p ts kp o b lo (u32_at b it) Hwp Hmt Hut Hb Ho Htp) as (CU & CA & CT & CH); try lia.
        assert (IHs : forall o', holds (map wt ts) o' ->
          (deserialize_loop b F (number (S k) (map vt qs)) (it + 4) (u32_at b it) (Some (k, vt t)) o' = UB <->
           fails b F rs (it + 4) (u32_at b it) (Some s))).
        { intros o' Ho'. apply IH; auto; try lia. exists t. split; [exact Hkt|]. split; [reflexivity|]. split; [exact Hm|]. split; [exact Hu|lia]. }
        destruct (call_des (vt tp) kp o b lo (u32_at b it)) as [[[] o']| |]; cbn [bind].
        -- rewrite (IHs o' (CH _ _ eq_refl)). split.
           ++ intros X. apply f_var; auto; [lia|]. apply CA. eauto.
           ++ intros X. inversion X; subst; auto; try lia. exfalso.
              match goal with U : undefined p _ |- _ => apply CU in U; discriminate U end.
        -- split; [discriminate|]. intros X. exfalso. inversion X; subst; try lia.
           ++ match goal with U : undefined p _ |- _ => apply CU in U; discriminate U end.
           ++ match goal with U : acc p _ |- _ => apply CA in U; destruct U as (? & U); discriminate U end.
        -- tauto.
        -- split; [|auto]. intros _. apply f_now; auto; [lia|]. now apply CU.
      * subst lo. cbn [Z.eqb negb]. destruct (Z.eqb_spec (u32_at b it) F) as [HeF|HneF]; cbn [negb].
        -- rewrite (IH (S k) Hk' (it + 4) (u32_at b it) (Some (k, vt t)) (Some s) o); auto; try lia.
           2:{ exists t. split; [exact Hkt|]. split; [reflexivity|]. split; [exact Hm|]. split; [exact Hu|lia]. }
           split; [intros X; apply f_var; auto; lia|]. intros X; inversion X; subst; auto; lia.
        -- split; [discriminate|]. intros X; inversion X; subst; auto; try lia.
    + destruct (Z.ltb_spec (zlen b - it) (sty_size s)) as [Hsh|Hsh].
      { split; [discriminate|]. inversion 1; subst; lia. }
      destruct (call_facts t s ts k o b it (it + sty_size s) Hwt Hm Hu Hb Ho Hkt) as (CU & CA & CT & CH); try lia.
      assert (ND : call_des (vt t) k o b it (it + sty_size s) <> UB).
      { intros E. apply CU in E. apply (Hu (vt_default (vt t))) in E; [|apply (g_def _ _ _ (good_all t Hwt false ltac:(discriminate)))|now apply bytes_at_ok].
        revert E. apply fixed_defined; auto; [unfold get_ssz_size; lia|apply (g_def _ _ _ (good_all t Hwt false ltac:(discriminate)))|now apply bytes_at_ok]. }
      destruct (call_des (vt t) k o b it (it + sty_size s)) as [[[] o']| |]; cbn [bind].
      * rewrite (IH (S k) Hk' (it + sty_size s) lo last lastS o'); auto; [|lia|exact (CH _ _ eq_refl)].
        split; [intros X; apply f_fix; auto; [lia|apply CA; eauto]|]. intros X; inversion X; subst; auto; lia.
      * split; [discriminate|]. intros X; inversion X; subst; try lia.
        match goal with U : acc s _ |- _ => apply CA in U; destruct U as (? & U); discriminate U end.
      * tauto.
      * tauto.
Qed.

(** ** The loop, declaratively *)
Definition split_ok (f : field) : Prop := 0 <= sty_size (snd f) /\ is_variable (snd f) = (sty_size (snd f) =? 0).
Definition P (b : list Z) (sizes : list Z) (it : Z) : list (list Z) :=
  map (fun r : Z * Z => bytes_at b (fst r) (snd r)) (part_ranges sizes b it).
Definition pending_hit (b : list Z) (fs : list field) (it lo : Z) (last : option sty) : Prop :=
  exists p, last = Some p /\
  let seen := sizes_of (upto_variable fs) in
  it + fixed_room seen <= zlen b /\ Sorted Z.le (lo :: offsets seen b it) /\ Forall (fun o => o <= zlen b) (offsets seen b it) /\
  Forall2 accepted (fixed_prefix fs) (firstn (length (fixed_prefix fs)) (P b seen it)) /\
  undefined p (bytes_at b lo (hd (zlen b) (offsets seen b it))).
Definition field_hit (b : list Z) (F : Z) (fs : list field) (it lo : Z) (last : option sty) : Prop :=
  exists a f r, fs = a ++ f :: r /\ is_variable (snd f) = true /\
  let seen := sizes_of (a ++ f :: upto_variable r) in
  it + fixed_room seen <= zlen b /\ Sorted Z.le (lo :: offsets seen b it) /\ Forall (fun o => o <= zlen b) (offsets seen b it) /\
  match last with None => hd F (offsets seen b it) = F | Some p => acc p (bytes_at b lo (hd (zlen b) (offsets seen b it))) end /\
  Forall2 accepted a (firstn (length a) (P b seen it)) /\
  Forall2 accepted (fixed_prefix r) (firstn (length (fixed_prefix r)) (skipn (S (length a)) (P b seen it))) /\
  undefined (snd f) (nth (length a) (P b seen it) []).

Lemma room_cons s r : fixed_room (s :: r) = (if s =? 0 then 4 else s) + fixed_room r.
Proof. reflexivity. Qed.
Lemma room_nonneg fs : Forall split_ok fs -> 0 <= fixed_room (sizes_of fs).
Proof.
  induction 1 as [|f fs [H _] _ IH]; [cbn; lia|]. unfold sizes_of in *. cbn [map]. rewrite room_cons.
  destruct (Z.eqb_spec (sty_size (snd f)) 0); lia.
Qed.
Lemma upto_ok fs : Forall split_ok fs -> Forall split_ok (upto_variable fs).
Proof. induction 1; cbn [upto_variable]; [constructor|]. destruct (is_variable (snd x)); constructor; auto. Qed.
Lemma P_fix b s r it : s <> 0 -> P b (s :: r) it = bytes_at b it (it + s) :: P b r (it + s).
Proof. intros Hs. unfold P. cbn [part_ranges]. replace (s =? 0) with false by lia. reflexivity. Qed.
Lemma P_var b r it : P b (0 :: r) it = bytes_at b (u32_at b it) (hd (zlen b) (offsets r b (it + 4))) :: P b r (it + 4).
Proof. reflexivity. Qed.
Lemma offsets_fix b s r it : s <> 0 -> offsets (s :: r) b it = offsets r b (it + s).
Proof. intros Hs. cbn [offsets]. now replace (s =? 0) with false by lia. Qed.
Lemma Forall2_cons' {A B} (R : A -> B -> Prop) x l y m : Forall2 R (x :: l) (y :: m) <-> R x y /\ Forall2 R l m.
Proof. split; [inversion 1; auto|intros [? ?]; constructor; auto]. Qed.
Lemma Forall_cons' {A} (R : A -> Prop) x l : Forall R (x :: l) <-> R x /\ Forall R l.
Proof. split; [inversion 1; auto|intros [? ?]; constructor; auto]. Qed.

Lemma fails_spec b F : bytes_ok b -> 0 < F -> forall fs, Forall split_ok fs -> forall it lo last,
  0 <= it <= zlen b -> 0 <= lo ->
  (fails b F (map snd fs) it lo last <-> pending_hit b fs it lo last \/ field_hit b F fs it lo last).
Proof.
  intros Hb HF. induction fs as [|f fs IH]; intros Hok it lo last Hit Hlo; cbn [map].
  - split.
    + inversion 1; subst. left. exists p. split; [reflexivity|]. cbn [upto_variable fixed_prefix sizes_of map offsets hd length firstn fixed_room sumZ fold_right].
      split; [lia|]. split; [repeat constructor|]. split; [constructor|]. split; [constructor|]. assumption.
    + intros [(p & -> & _ & _ & _ & _ & U)|(a & f & r & E & _)]; [|destruct a; discriminate E]. constructor. exact U.
  - apply Forall_cons' in Hok as [[Hs0 Hv] Hok]. pose proof (room_nonneg _ (upto_ok _ Hok)) as Hroom.
    pose proof (u32_at_nonneg b it Hb) as Hu0.
    destruct (Z.eqb_spec (sty_size (snd f)) 0) as [Hz|Hz].
    + (* variable part *)
      assert (A : pending_hit b (f :: fs) it lo last <-> exists p, last = Some p /\ it + 4 <= zlen b /\ lo <= u32_at b it <= zlen b /\ undefined p (bytes_at b lo (u32_at b it))).
      { unfold pending_hit. cbn [upto_variable fixed_prefix]. rewrite Hv. unfold sizes_of. cbn [map]. rewrite Hz. cbn [offsets Z.eqb length firstn hd].
        change (fixed_room [0]) with 4. split.
        - intros (p & -> & H1 & H2 & H3 & _ & H5). exists p. split; [reflexivity|]. apply sorted_hd_tl in H2 as [H2 _]. apply Forall_cons' in H3 as [H3 _]. auto.
        - intros (p & -> & H1 & H2 & H3). exists p. split; [reflexivity|]. split; [exact H1|]. split; [repeat constructor; lia|].
          split; [repeat constructor; lia|]. split; [constructor|exact H3]. }
      assert (B : field_hit b F (f :: fs) it lo last <->
        it + 4 <= zlen b /\ lo <= u32_at b it <= zlen b /\
        match last with None => u32_at b it = F | Some p => acc p (bytes_at b lo (u32_at b it)) end /\
        (pending_hit b fs (it + 4) (u32_at b it) (Some (snd f)) \/ field_hit b F fs (it + 4) (u32_at b it) (Some (snd f)))).
      { split.
        - intros (a & g & r & E & Vg & H1 & H2 & H3 & H4 & H5 & H6 & H7). destruct a as [|x a]; injection E as <- ->.
          + cbn [app length] in *. unfold sizes_of in *. cbn [map] in *. rewrite Hz in *. rewrite room_cons in H1. cbn [Z.eqb offsets hd] in *.
            rewrite P_var in *. cbn [nth skipn] in *.
            apply sorted_hd_tl in H2 as [H2 H2']. apply Forall_cons' in H3 as [H3 H3'].
            split; [lia|]. split; [lia|]. split; [exact H4|]. left. exists (snd f). split; [reflexivity|].
            split; [unfold sizes_of; lia|]. auto.
          + cbn [app length] in *. unfold sizes_of in *. cbn [map] in *. rewrite Hz in *. rewrite room_cons in H1. cbn [Z.eqb offsets hd] in *.
            rewrite P_var in *. cbn [nth skipn firstn] in *. apply Forall2_cons' in H5 as [H5 H5'].
            apply sorted_hd_tl in H2 as [H2 H2']. apply Forall_cons' in H3 as [H3 H3'].
            assert (R0 : 0 <= fixed_room (map (fun f => sty_size (snd f)) (a ++ g :: upto_variable r))).
            { apply room_nonneg. apply Forall_app in Hok as [Ha Hr]. apply Forall_cons' in Hr as [Hg Hr].
              apply Forall_app. split; [exact Ha|]. constructor; [exact Hg|apply upto_ok, Hr]. }
            split; [lia|]. split; [lia|]. split; [exact H4|]. right. exists a, g, r. split; [reflexivity|]. split; [exact Vg|].
            split; [unfold sizes_of; lia|]. auto 10.
        - intros (H1 & H2 & H3 & [(p & [= <-] & K1 & K2 & K3 & K4 & K5)|(a & g & r & -> & Vg & K1 & K2 & K3 & K4 & K5 & K6 & K7)]).
          + exists [], f, fs. split; [reflexivity|]. split; [exact Hv|]. cbn [app length]. unfold sizes_of in *. cbn [map]. rewrite Hz. rewrite room_cons.
            cbn [Z.eqb offsets hd]. rewrite P_var. cbn [nth skipn firstn].
            split; [lia|]. split; [apply sorted_hd_tl; split; [lia|exact K2]|]. split; [constructor; [lia|exact K3]|]. split; [exact H3|]. split; [constructor|]. auto.
          + exists (f :: a), g, r. split; [reflexivity|]. split; [exact Vg|]. cbn [app length]. unfold sizes_of in *. cbn [map]. rewrite Hz. rewrite room_cons.
            cbn [Z.eqb offsets hd]. rewrite P_var. cbn [nth skipn firstn].
            split; [lia|]. split; [apply sorted_hd_tl; split; [lia|exact K2]|]. split; [constructor; [lia|exact K3]|]. split; [exact H3|].
            split; [apply Forall2_cons'; split; [exact K4|exact K5]|]. auto. }
      rewrite A, B. split.
      * intros X. inversion X; subst; try lia.
        -- left. eauto.
        -- right. split; [assumption|]. split; [assumption|]. split; [assumption|]. apply IH; auto; lia.
      * intros [(p & -> & H1 & H2 & H3)|(H1 & H2 & H3 & H4)]; [apply f_now; auto|].
        apply f_var; auto. apply IH; auto; lia.
    + (* fixed part *)
      assert (A : pending_hit b (f :: fs) it lo last <-> it + sty_size (snd f) <= zlen b /\ accepted f (bytes_at b it (it + sty_size (snd f))) /\
                  pending_hit b fs (it + sty_size (snd f)) lo last).
      { unfold pending_hit. cbn [upto_variable fixed_prefix]. rewrite Hv. unfold sizes_of in *. cbn [map length firstn].
        pose proof (room_cons (sty_size (snd f)) (map (fun f => sty_size (snd f)) (upto_variable fs))) as E1.
        replace (sty_size (snd f) =? 0) with false in E1 by lia.
        pose proof (offsets_fix b (sty_size (snd f)) (map (fun f => sty_size (snd f)) (upto_variable fs)) it Hz) as E2.
        pose proof (P_fix b (sty_size (snd f)) (map (fun f => sty_size (snd f)) (upto_variable fs)) it Hz) as E3. split.
        - intros (p & -> & H1 & H2 & H3 & H4 & H5). rewrite E1, E2, E3 in *. cbn [firstn] in H4. apply Forall2_cons' in H4 as [H4 H4'].
          split; [lia|]. split; [exact H4|]. exists p. split; [reflexivity|]. split; [lia|]. auto.
        - intros (H0 & H4 & p & -> & H1 & H2 & H3 & H4' & H5). exists p. split; [reflexivity|]. rewrite E1, E2, E3. cbn [firstn]. rewrite Forall2_cons'.
          split; [lia|]. auto. }
      assert (B : field_hit b F (f :: fs) it lo last <-> it + sty_size (snd f) <= zlen b /\ accepted f (bytes_at b it (it + sty_size (snd f))) /\
                  field_hit b F fs (it + sty_size (snd f)) lo last).
      { split.
        - intros (a & g & r & E & Vg & H1 & H2 & H3 & H4 & H5 & H6 & H7). destruct a as [|x a]; injection E as <- ->; [congruence|].
          cbn [app length] in *. unfold sizes_of in *. cbn [map] in *. rewrite room_cons in H1. replace (sty_size (snd f) =? 0) with false in H1 by lia.
          rewrite offsets_fix in * by exact Hz. rewrite P_fix in * by exact Hz. cbn [nth skipn firstn] in *. apply Forall2_cons' in H5 as [H5 H5'].
          assert (R0 : 0 <= fixed_room (map (fun f => sty_size (snd f)) (a ++ g :: upto_variable r))).
          { apply room_nonneg. apply Forall_app in Hok as [Ha Hr]. apply Forall_cons' in Hr as [Hg Hr].
            apply Forall_app. split; [exact Ha|]. constructor; [exact Hg|apply upto_ok, Hr]. }
          split; [lia|]. split; [exact H5|]. exists a, g, r. split; [reflexivity|]. split; [exact Vg|]. split; [unfold sizes_of; lia|]. auto 10.
        - intros (H0 & H5 & a & g & r & -> & Vg & H1 & H2 & H3 & H4 & H5' & H6 & H7). exists (f :: a), g, r. split; [reflexivity|]. split; [exact Vg|].
          cbn [app length]. unfold sizes_of in *. cbn [map]. rewrite room_cons. replace (sty_size (snd f) =? 0) with false by lia.
          rewrite offsets_fix by exact Hz. rewrite P_fix by exact Hz. cbn [nth skipn firstn]. rewrite Forall2_cons'.
          split; [lia|]. auto 10. }
      rewrite A, B. split.
      * intros X. inversion X; subst; try lia.
        assert (Y : pending_hit b fs (it + sty_size (snd f)) lo last \/ field_hit b F fs (it + sty_size (snd f)) lo last) by (apply IH; auto; lia).
        unfold acc in *. fold (accepted f (bytes_at b it (it + sty_size (snd f)))) in *. tauto.
      * intros Y. assert (Z0 : it + sty_size (snd f) <= zlen b) by tauto. apply f_fix; [exact Hz|exact Z0|unfold acc; tauto|]. apply IH; auto; [lia|tauto].
Qed.

Lemma go_hits b F all : bytes_ok b -> 0 < F -> F = fixed_room (sizes_of all) -> forall fs before, all = before ++ fs ->
  (((fix go (before fs : list field) : Prop :=
         match fs with
         | [] => False
         | f :: after =>
             (reached before f after b /\
              let (_, t) := f in undefined t (range_of_field before f after b)) \/
             go (before ++ [f]) after
         end) before fs) <->
   exists a f r, fs = a ++ f :: r /\ reached (before ++ a) f r b /\ undefined (snd f) (range_of_field (before ++ a) f r b)).
Proof.
  intros Hb HF HFa. induction fs as [|f fs IH]; intros before E.
  - split; [tauto|]. intros (a & f & r & X & _). destruct a; discriminate X.
  - rewrite IH by (rewrite E, <- app_assoc; reflexivity). split.
    + intros [[R U]|(a & g & r & -> & R & U)].
      * exists [], f, fs. rewrite app_nil_r. split; [reflexivity|]. split; [exact R|]. now destruct f.
      * exists (f :: a), g, r. rewrite <- app_assoc in R, U. auto.
    + intros (a & g & r & X & R & U). destruct a as [|x a]; injection X as <- ->.
      * left. rewrite app_nil_r in *. split; [exact R|]. now destruct f.
      * right. exists a, g, r. rewrite <- app_assoc. auto.
Qed.
Lemma undefined_container b fs : bytes_ok b -> Forall split_ok fs -> 0 < fixed_room (sizes_of fs) ->
  (undefined (SContainer fs) b <-> fails b (fixed_room (sizes_of fs)) (map snd fs) 0 0 None).
Proof.
  intros Hb Hok HF. pose proof (zlen_nonneg b). rewrite fails_spec by (auto; lia).
  cbn [undefined]. rewrite (go_hits b _ fs Hb HF eq_refl fs [] eq_refl). cbn [app].
  assert (NP : ~ pending_hit b fs 0 0 None) by (intros (p & E & _); discriminate E).
  assert (Q : forall x y : Prop, ~ x -> ((x \/ y) <-> y)) by tauto. rewrite Q by exact NP. clear NP Q.
  unfold field_hit, reached, range_of_field, parts. split.
  - intros (a & f & r & -> & (R1 & R2 & R3 & R4 & R5 & R6 & R7) & U). exists a, f, r. split; [reflexivity|]. split; [exact R1|].
    split; [exact R2|]. split; [apply sorted_zero; [now apply offsets_nonneg|exact R4]|]. split; [exact R5|].
    split; [|auto]. revert R3. destruct (offsets _ b 0); cbn [hd]; auto.
  - intros (a & f & r & -> & R1 & R2 & R4 & R5 & R3 & R6 & R7 & U). exists a, f, r. split; [reflexivity|]. split; [|exact U].
    split; [exact R1|]. split; [exact R2|]. split; [|split; [exact (proj1 (sorted_zero _ (offsets_nonneg _ Hb _ _)) R4)|auto]].
    revert R3. assert (NE : offsets (sizes_of (a ++ f :: upto_variable r)) b 0 <> []).
    { apply Forall_app in Hok as [_ Hf]. apply Forall_cons' in Hf as [[_ Hf] _]. rewrite R1 in Hf. clear - Hf. unfold sizes_of. rewrite map_app. cbn [map].
      assert (G : forall p, offsets (map (fun f => sty_size (snd f)) a ++ sty_size (snd f) :: map (fun f => sty_size (snd f)) (upto_variable r)) b p <> []).
      { induction a as [|x a IH]; intros p; cbn [map app offsets].
        - rewrite <- Hf. discriminate.
        - destruct (sty_size (snd x) =? 0); [discriminate|apply IH]. }
      apply G. }
    destruct (offsets _ b 0); [easy|]. cbn [hd]. auto.
Qed.

(** ** Lists of variable-size elements *)
Section Listv.
Variables (t : ty) (s : sty) (b : list Z).
Hypothesis Hwf : wf t = true.
Hypothesis Hm : matches t s = true.
Hypothesis Hu : und_ok t s.
Hypothesis Hb : bytes_ok b.

Lemma element_facts i j : 0 <= i <= j -> j <= zlen b ->
  (vt_des (vt t) (vt_default (vt t)) (bytes_at b i j) = UB <-> undefined s (bytes_at b i j)) /\
  ((exists v, vt_des (vt t) (vt_default (vt t)) (bytes_at b i j) = Ok (true, v)) <-> acc s (bytes_at b i j)) /\
  vt_des (vt t) (vt_default (vt t)) (bytes_at b i j) <> Throw.
Proof.
  intros Hij Hj. assert (Hd : wt t (vt_default (vt t))) by apply (g_def _ _ _ (good_all t Hwf false ltac:(discriminate))).
  assert (Hs : bytes_ok (bytes_at b i j)) by now apply bytes_at_ok. split; [apply Hu; auto|]. split; [|apply not_throw; auto].
  unfold acc. split; intros (v & E); exists v; apply (deserialize_accepts t Hwf s Hm _ _ v Hd Hs); exact E.
Qed.

(** [k] elements from the one whose offset is at [pos] on *)
Definition listv_hit (F pos : Z) : Prop := exists n k,
  (n = S k /\ pos + 4 * Z.of_nat n = F \/ n = S (S k) /\ pos + 4 * Z.of_nat n <= F) /\
  Sorted Z.le (offsets (repeat 0 n) b pos) /\ Forall (fun o => o <= zlen b) (offsets (repeat 0 n) b pos) /\
  Forall (acc s) (firstn k (P b (repeat 0 n) pos)) /\ undefined s (nth k (P b (repeat 0 n) pos) []).

Lemma listv_hit_step F pos : 0 <= u32_at b pos <= zlen b -> pos + 4 <= F ->
  (listv_hit F pos <->
   if pos + 4 =? F then undefined s (bytes_at b (u32_at b pos) (zlen b))
   else pos + 8 <= F /\ u32_at b pos <= u32_at b (pos + 4) <= zlen b /\
        (undefined s (bytes_at b (u32_at b pos) (u32_at b (pos + 4))) \/
         acc s (bytes_at b (u32_at b pos) (u32_at b (pos + 4))) /\ listv_hit F (pos + 4))).
Proof.
  intros Ho HF. split.
  - intros (n & k & Hn & H1 & H2 & H3 & H4). destruct n as [|n]; [lia|]. cbn [repeat offsets Z.eqb] in H1, H2. cbn [repeat] in H3, H4.
    rewrite P_var in *. destruct (Z.eqb_spec (pos + 4) F) as [E|E].
    + assert (n = 0 /\ k = 0)%nat as [-> ->] by lia. exact H4.
    + split; [lia|]. destruct n as [|n]; [lia|]. cbn [repeat offsets Z.eqb hd] in *. apply sorted_hd_tl in H1 as [H1 H1'].
      apply Forall_cons' in H2 as [H2 H2']. assert (H2'' := H2'). apply Forall_cons' in H2'' as [H2'' _]. split; [lia|].
      destruct k as [|k]; [left; exact H4|]. right. cbn [firstn nth] in H3, H4. apply Forall_cons' in H3 as [H3 H3']. split; [exact H3|].
      exists (S n), k. split; [lia|]. auto.
  - destruct (Z.eqb_spec (pos + 4) F) as [E|E].
    + intros U. exists 1%nat, 0%nat. split; [lia|]. cbn [repeat offsets Z.eqb firstn]. rewrite P_var. split; [repeat constructor|].
      split; [repeat constructor; lia|]. split; [constructor|exact U].
    + intros (H1 & H2 & [U|(A & n & k & Hn & K1 & K2 & K3 & K4)]).
      * exists 2%nat, 0%nat. split; [lia|]. cbn [repeat offsets Z.eqb firstn]. rewrite P_var. cbn [offsets Z.eqb hd nth].
        split; [repeat constructor; lia|]. split; [repeat constructor; lia|]. split; [constructor|exact U].
      * destruct n as [|n]; [lia|]. exists (S (S n)), (S k). split; [lia|]. cbn [repeat offsets Z.eqb] in K1, K2 |- *.
        change (repeat 0 (S n)) with (0 :: repeat 0 n) in K3, K4. rewrite (P_var b (0 :: repeat 0 n)).
        cbn [offsets Z.eqb hd firstn nth]. split; [apply sorted_hd_tl; split; [lia|exact K1]|]. split; [constructor; [lia|exact K2]|].
        split; [constructor; [exact A|exact K3]|exact K4].
Qed.

Lemma listv_loop_ub F : F <= zlen b -> forall fuel it lo arr, 4 <= it <= F -> lo = u32_at b (it - 4) -> lo <= zlen b ->
  F - it <= Z.of_nat fuel ->
  (listv_des_loop fuel (vt t) b F it lo arr = UB <-> listv_hit F (it - 4)).
Proof.
  intros HF. induction fuel as [|fuel IH]; intros it lo arr Hit Hlo Hle Hfu; pose proof (u32_at_nonneg b (it - 4) Hb) as Hn;
    rewrite listv_hit_step by lia; replace (it - 4 + 4) with it by lia; cbn [listv_des_loop].
  - replace (it =? F) with true by lia. rewrite slice_bytes_at by lia. cbn [bind]. rewrite <- Hlo.
    destruct (element_facts lo (zlen b)) as (EU & EA & ET); try lia.
    destruct (vt_des _ _ _) as [[[] v]| |]; cbn [bind]; rewrite <- EU; solve [tauto|split; discriminate].
  - destruct (Z.eqb_spec it F) as [E|E].
    + rewrite slice_bytes_at by lia. cbn [bind]. rewrite <- Hlo.
      destruct (element_facts lo (zlen b)) as (EU & EA & ET); try lia.
      destruct (vt_des _ _ _) as [[[] v]| |]; cbn [bind]; rewrite <- EU; solve [tauto|split; discriminate].
    + unfold BYTES_PER_LENGTH_OFFSET. destruct (Z.gtb_spec (it + 4) F) as [H4|H4]; [split; [discriminate|lia]|].
      rewrite (slice_bytes_at b it (it + 4)) by lia. cbn [bind]. fold (u32_at b it). rewrite <- Hlo.
      destruct (Z.ltb_spec (u32_at b it) lo) as [H5|H5]; [split; [discriminate|lia]|].
      destruct (Z.ltb_spec (zlen b) (u32_at b it)) as [H6|H6]; [split; [discriminate|lia]|].
      rewrite slice_bytes_at by lia. cbn [bind].
      destruct (element_facts lo (u32_at b it)) as (EU & EA & ET); try lia.
      specialize (IH (it + 4) (u32_at b it)). replace (it + 4 - 4) with it in IH by lia.
      destruct (vt_des _ _ _) as [[[] v]| |]; cbn [bind]; rewrite <- EU.
      * rewrite IH by (auto; lia). split.
        -- intros X. split; [lia|]. split; [lia|]. right. split; [apply EA; eauto|exact X].
        -- intros (_ & _ & [X|[_ X]]); [discriminate X|exact X].
      * split; [discriminate|]. intros (_ & _ & [X|[X _]]); [discriminate X|]. apply EA in X as (v' & X). discriminate X.
      * tauto.
      * split; [|reflexivity]. intros _. split; [lia|]. split; [lia|]. now left.
Qed.

Lemma listv_ub old : is_variable s = true -> forall limit, listv_deserialize (vt t) old b = UB <-> undefined (SList s limit) b.
Proof.
  intros Hv limit. cbn [undefined]. unfold listv_deserialize, BYTES_PER_LENGTH_OFFSET, element_reached.
  pose proof (zlen_nonneg b) as Hz. pose proof (u32_at_nonneg b 0 Hb) as Hn.
  assert (Q : (is_variable s = true /\ exists n k, ((n = S k /\ u32_at b 0 = 4 * Z.of_nat n \/ n = S (S k) /\ 4 * Z.of_nat n <= u32_at b 0) /\
     u32_at b 0 <= zlen b /\ Sorted Z.le (offsets (repeat 0 n) b 0) /\ Forall (fun o => o <= zlen b) (offsets (repeat 0 n) b 0) /\
     Forall (fun x => exists v, accepts s x v) (firstn k (parts (repeat 0 n) b))) /\ undefined s (nth k (parts (repeat 0 n) b) []))
     <-> 4 <= u32_at b 0 <= zlen b /\ listv_hit (u32_at b 0) 0).
  { split.
    - intros (_ & n & k & (H1 & H2 & H3 & H4 & H5) & H6). split; [lia|]. exists n, k. split; [lia|]. auto.
    - intros (H0 & n & k & H1 & H2 & H3 & H4 & H5). split; [exact Hv|]. exists n, k. split; [|exact H5]. split; [lia|]. split; [lia|]. auto. }
  rewrite Q. clear Q.
  destruct (Z.eqb_spec (zlen b) 0) as [E|E]; [split; [discriminate|lia]|].
  destruct (Z.ltb_spec (zlen b) 4) as [H4|H4]; [split; [discriminate|lia]|].
  rewrite slice_bytes_at by lia. cbn [bind]. change (le_val (bytes_at b 0 4)) with (u32_at b 0).
  destruct (Z.ltb_spec (u32_at b 0) 4) as [L4|L4]; [split; [discriminate|lia]|].
  destruct (Z.ltb_spec (zlen b) (u32_at b 0)) as [Lz|Lz]; [split; [discriminate|lia]|].
  pose proof (listv_loop_ub (u32_at b 0) Lz (length b) 4 (u32_at b 0) [] ltac:(lia) eq_refl Lz ltac:(unfold zlen in *; lia)) as X.
  change (4 - 4) with 0 in X. rewrite <- X. destruct (listv_des_loop _ _ _ _ _ _ _) as [[r a]| |]; cbn [bind].
  - split; [discriminate|intros [_ Y]; discriminate Y].
  - split; [discriminate|intros [_ Y]; discriminate Y].
  - split; auto.
Qed.
End Listv.

Theorem deserialize_undefined t : wf t = true -> forall s, matches t s = true -> und_ok t s.
Proof.
  induction t using ty_ind'; intros Hwf s Hm old b Ho Hb.
  all: destruct s; try discriminate Hm.
  all: match goal with
       | |- vt_des (vt (TBitlist _)) _ _ = UB <-> _ => idtac
       | |- vt_des (vt (TListV _ _)) _ _ = UB <-> _ => idtac
       | |- vt_des (vt (TListF _ _)) _ _ = UB <-> _ => idtac
       | |- vt_des (vt (TClass _ _)) _ _ = UB <-> _ => idtac
       | |- _ => cbn [undefined]; split; [|tauto]; intros E; exfalso; revert E; apply fixed_defined; auto
       end.
  - unfold get_ssz_size. cbn [vt vt_size wf] in *. lia.
  - discriminate.
  - discriminate.
  - unfold get_ssz_size. cbn [vt vt_size wf] in *. apply Z.ltb_lt in Hwf. unfold BITS_PER_BYTE. clear - Hwf. lia.
  - cbn [vt vt_des undefined]. now apply bitlist_deserialize_ub.
  - cbn [wf] in Hwf. unfold get_ssz_size in *. cbn [vt vt_size]. apply andb_true_iff in Hwf as [Hwf Hsz]. apply andb_true_iff in Hwf as [Hwf Hn].
    apply Z.ltb_lt in Hsz, Hn. clear - Hsz Hn. nia.
  - assert (Hwf' := Hwf). cbn [wf] in Hwf. apply andb_true_iff in Hwf as [Hwf Hsz]. cbn [matches] in Hm. apply andb_true_iff in Hm as [_ Hm].
    pose proof (matches_variable t Hwf s Hm) as Hvar. cbn [undefined].
    apply Z.ltb_lt in Hsz. assert (Nv : is_variable s = false) by (rewrite Hvar; apply Z.eqb_neq; clear - Hsz; lia). rewrite Nv. split; [|intros [X _]; discriminate X].
    intros E. exfalso. pose proof (g_res _ _ _ (good_all _ Hwf' true (fun _ => fixed_no_bitlist t Hwf ltac:(clear - Hsz; lia))) old b Ho Hb) as R.
    unfold res_ok in R. rewrite E in R. discriminate R.
  - cbn [wf] in Hwf. apply andb_true_iff in Hwf as [Hwf Hsz]. cbn [matches] in Hm. apply andb_true_iff in Hm as [_ Hm].
    pose proof (matches_variable t Hwf s Hm) as Hvar. cbn [vt vt_des]. apply listv_ub; auto. congruence.
  - apply wf_class in Hwf. destruct Hwf. cbn [matches] in Hm. apply all2b_Forall2 in Hm.
    apply (class_W_wt ci fs) in Ho. destruct old as [| | | |l0]; cbn [class_W] in Ho; try tauto.
    assert (Hsizes : sizes_of fields = map vt_size (map vt fs)).
    { clear - Hm cw_fields. induction Hm as [|t0 g fs gs Hg _ IH]; auto. inversion cw_fields; subst.
      unfold sizes_of in *. cbn [map]. f_equal; auto. now apply matches_size. }
    assert (Hpos : 0 < vt_fixed (map vt fs)).
    { apply (vt_fixed_pos false (map vt fs) (map wt fs)).
      - clear - cw_fields. induction cw_fields; cbn [map]; constructor; auto. apply good_all; auto; discriminate.
      - destruct fs; [easy|discriminate]. }
    rewrite undefined_container; [|exact Hb| |rewrite Hsizes, fixed_room_vt; exact Hpos].
    2:{ clear - Hm cw_fields. induction Hm as [|t0 g fs gs Hg _ IH]; constructor; inversion cw_fields; subst; auto. split.
        - rewrite (matches_size t0 H1 _ Hg). eapply g_size. apply (good_all t0 H1 false). discriminate.
        - rewrite (matches_size t0 H1 _ Hg). now apply matches_variable. }
    rewrite Hsizes, fixed_room_vt.
    cbn [vt vt_des class_deserialize]. unfold deserialize_. rewrite cw_des, <- (map_length vt fs), pick_des_number.
    assert (M : map snd (number 0 (map vt fs)) = map vt fs).
    { unfold number. generalize 0%nat. generalize (map vt fs). clear. induction l; intros k; cbn; auto. f_equal. apply IHl. }
    rewrite M, compute_fixed_length_eq. unfold u32. rewrite Z.mod_small by (rewrite vt_fixed_fixed_size in *; lia).
    pose proof (zlen_nonneg b).
    rewrite <- (loop_ub b (vt_fixed (map vt fs)) fs Hb Hpos cw_fields fs (map snd fields)) with (k := 0%nat) (last := None) (o := l0); auto; try lia.
    + destruct (deserialize_loop _ _ _ _ _ _ _) as [[r o']| |]; cbn [bind]; tauto || (split; discriminate).
    + clear - H Hm cw_fields. revert H cw_fields. induction Hm as [|t0 g fs gs Hg _ IH]; intros Ha Hw; cbn [map]; constructor;
        inversion Ha; inversion Hw; subst; auto.
Qed.
