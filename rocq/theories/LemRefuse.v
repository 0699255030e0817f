(** The nodes that decode() refuses, exactly. *)
From Coq Require Import ZArith String List Bool Lia ZifyBool ZifyNat.
From Verif Require Import Base SpecSSZ ModelSSZ ModelBytes ModelYaml SpecYaml SpecBytes SpecText SpecLoose SpecRefuse SpecObj ModelEth
  SpecPhase0 SpecClasses LemBase LemTy LemPred LemThmCodec LemMatch LemYaml LemText LemDecode LemLoose.
Import ListNotations.
Open Scope list_scope.
Open Scope Z_scope.

Section Exact.
Variable e : externals.
Definition refusing (t : ty) (s : sty) : Prop := forall old n v, wt t old ->
  (decode e t old n = Ok (false, v) <-> refuses e s n old v).

Lemma text_refused s n old v : takes_text s -> (forall str, n <> YScalar str) ->
  (@Ok (bool * val) (false, old) = Ok (false, v) <-> refuses e s n old v).
Proof.
  intros T N. split.
  - intros E. assert (old = v) by congruence. subst v. now apply R_text.
  - intros R. inversion R; subst; try reflexivity; try contradiction T.
Qed.
Lemma refuse_bytes n k : refusing (TBytes n) (SByteVector k).
Proof.
  intros old nd v _. unfold decode. cbn [yvt y_decode]. unfold bytes_decode.
  destruct nd as [str|ns|m]; cbn [scalar_decode]; [|apply text_refused; [exact I|discriminate]..].
  split.
  - destruct (bytes_from_str _ _); cbn [bind]; discriminate.
  - intros R. inversion R as [? ? ? _ N| | |? ? ? T| |]; subst; [destruct (N _ eq_refl)|contradiction T].
Qed.
Lemma refuse_slot : refusing TSlot SUint64.
Proof.
  intros old nd v _. unfold decode. cbn [yvt y_decode]. unfold slot_decode.
  destruct nd as [str|ns|m]; cbn [scalar_decode]; [|apply text_refused; [exact I|discriminate]..].
  split.
  - destruct (text_num e str) eqn:T; [discriminate|]. intros E. assert (old = v) by congruence. subst. now apply R_number.
  - intros R. inversion R as [? ? ? _ N|? ? T| |? ? ? T| |]; subst; [destruct (N _ eq_refl)|rewrite T; reflexivity|contradiction T].
Qed.
Lemma refuse_boolean : refusing TBoolean SBoolean.
Proof.
  intros old nd v _. unfold decode. cbn [yvt y_decode]. unfold boolean_decode.
  destruct nd as [str|ns|m]; cbn [scalar_decode]; [|apply text_refused; [exact I|discriminate]..].
  split.
  - destruct (text_bool e str) eqn:T; [discriminate|]. intros E. assert (old = v) by congruence. subst. now apply R_bool.
  - intros R. inversion R as [? ? ? _ N| |? ? T|? ? ? T| |]; subst; [destruct (N _ eq_refl)|rewrite T; reflexivity|contradiction T].
Qed.
Lemma refuse_bitvector n k : refusing (TBitvector n) (SBitvector k).
Proof.
  intros old nd v _. unfold decode. cbn [yvt y_decode]. unfold bitvector_decode.
  destruct nd as [str|ns|m]; cbn [scalar_decode]; [|apply text_refused; [exact I|discriminate]..].
  split.
  - destruct (bitvector_from_hexstring _ _ _); cbn [bind]; discriminate.
  - intros R. inversion R as [? ? ? _ N| | |? ? ? T| |]; subst; [destruct (N _ eq_refl)|contradiction T].
Qed.
Lemma refuse_bitlist n k : refusing (TBitlist n) (SBitlist k).
Proof.
  intros old nd v _. unfold decode. cbn [yvt y_decode]. unfold bitlist_decode.
  destruct nd as [str|ns|m]; cbn [scalar_decode]; [|apply text_refused; [exact I|discriminate]..].
  split.
  - destruct (bitlist_from_hexstring _ _); cbn [bind]; discriminate.
  - intros R. inversion R as [? ? ? _ N| | |? ? ? T| |]; subst; [destruct (N _ eq_refl)|contradiction T].
Qed.
Lemma seq_refused s n old v : takes_sequence s -> (forall ns, n <> YSeq ns) ->
  (@Ok (bool * val) (false, old) = Ok (false, v) <-> refuses e s n old v).
Proof.
  intros T N. split.
  - intros E. assert (old = v) by congruence. subst v. now apply R_sequence.
  - intros R. inversion R; subst; try reflexivity; try contradiction T.
Qed.
Lemma refuse_vector t s n : refusing (TVector t n) (SVector s n).
Proof.
  intros old nd v _. unfold decode. cbn [yvt y_decode]. unfold array_decode.
  destruct nd as [str|ns|m]; [apply seq_refused; [exact I|discriminate]| |apply seq_refused; [exact I|discriminate]].
  destruct (Z.eqb_spec (zlen ns) n) as [L|L]; cbn [negb]; split.
  - destruct (mapM _ ns); cbn [bind]; discriminate.
  - intros R. inversion R as [? ? ? T| | |? ? ? _ N|? ? ? ? M|]; subst; [contradiction T|destruct (N _ eq_refl)|congruence].
  - intros E. assert (old = v) by congruence. subst v. now apply R_length.
  - intros R. inversion R as [? ? ? T| | |? ? ? _ N|? ? ? ? M|]; subst; [contradiction T|destruct (N _ eq_refl)|reflexivity].
Qed.
Lemma refuse_list t s k old nd v :
  vec_decode (yvt e t) old nd = Ok (false, v) <-> refuses e (SList s k) nd old v.
Proof.
  unfold vec_decode. destruct nd as [str|ns|m]; [apply seq_refused; [exact I|discriminate]| |apply seq_refused; [exact I|discriminate]].
  split.
  - destruct (mapM _ ns); cbn [bind]; discriminate.
  - intros R. inversion R as [? ? ? T| | |? ? ? _ N| |]; subst; [contradiction T|destruct (N _ eq_refl)].
Qed.

Notation field m := (fun (f : string * sty) v => exists n, bound_to m (fst f) n /\ reads_as e (snd f) n v).
Lemma refuse_parts m : forall gs ts ts0 pre old l, length pre = length ts0 ->
  Forall2 (fun t (f : string * sty) => exactly e t (snd f) /\ refusing t (snd f)) ts gs -> all2 wt ts old ->
  (decode_ (map (yvt e) (ts0 ++ ts)) (YMap m) (combine (map fst gs) (seq (length pre) (length gs))) (pre ++ old) = Ok (false, l) <->
   exists gs1 f gs2 vs n old1 o old2 o', gs = gs1 ++ f :: gs2 /\ Forall2 (field m) gs1 vs /\ bound_to m (fst f) n /\
     refuses e (snd f) n o o' /\ old = old1 ++ o :: old2 /\ zlen old1 = zlen vs /\ l = pre ++ vs ++ o' :: old2).
Proof.
  induction gs as [|[name s] gs IH]; intros ts ts0 pre old l Hp Hx Ho.
  - cbn [map length seq combine decode_]. split; [discriminate|].
    intros (gs1 & f & gs2 & ? & ? & ? & ? & ? & ? & E & _). destruct gs1; discriminate.
  - inversion Hx as [|t ? ts' ? [Ht Hr] Hx']; subst. destruct old as [|o old]; [contradiction Ho|]. destruct Ho as [Ho Hos].
    cbn [map length seq combine decode_ yget fst].
    destruct (ymap_get m name) as [n| |] eqn:G; cbn [bind].
    3:{ destruct (ymap_get_no_ub _ _ G). }
    2:{ assert (Nb : forall n, ~ bound_to m name n) by (intros n Hb; apply ymap_get_bound in Hb; congruence).
        split; [discriminate|]. intros (gs1 & f & gs2 & vs & n & ? & ? & ? & ? & E & F & Hb & _). destruct gs1 as [|g gs1]; cbn [app] in E.
        - injection E as <- _. destruct (Nb _ Hb).
        - injection E as <- _. inversion F as [|? ? ? ? (n' & Hb' & _)]; subst. destruct (Nb _ Hb'). }
    apply ymap_get_bound in G.
    assert (Ep : nth (length pre) (map (yvt e) (ts0 ++ t :: ts'))
       {| y_default := VNum 0; y_encode := fun _ => YSeq []; y_decode := fun _ _ => UB |} = yvt e t).
    { rewrite map_app, app_nth2 by (rewrite map_length; lia). rewrite map_length, Hp, Nat.sub_diag. reflexivity. }
    rewrite Ep. rewrite app_nth2, Nat.sub_diag by lia. cbn [nth].
    cbn [snd] in Ht, Hr. destruct (Ht o n Ho) as [H1 H2]. specialize (fun v => Hr o n v Ho) as H3. unfold decode in H1, H2, H3.
    assert (Un : forall n', bound_to m name n' -> n' = n).
    { intros n' Hb. apply ymap_get_bound in Hb, G. congruence. }
    assert (No : y_decode (yvt e t) o n <> UB -> (forall v, y_decode (yvt e t) o n <> Ok (true, v)) -> (forall v, y_decode (yvt e t) o n <> Ok (false, v)) ->
      ~ exists gs1 f gs2 vs n' old1 o1 old2 o', (name, s) :: gs = gs1 ++ f :: gs2 /\ Forall2 (field m) gs1 vs /\ bound_to m (fst f) n' /\
        refuses e (snd f) n' o1 o' /\ o :: old = old1 ++ o1 :: old2 /\ zlen old1 = zlen vs /\ l = pre ++ vs ++ o' :: old2) by
      (intros _ N1 N2 (gs1 & f & gs2 & vs & n' & old1 & o1 & old2 & o' & E & F & Hb & R & Eo & L & _);
       destruct gs1 as [|g gs1]; cbn [app] in E;
       [injection E as <- <-; inversion F; subst; destruct old1 as [|? old1]; [|rewrite zlen_cons, zlen_nil in L; pose proof (zlen_nonneg old1); lia];
        injection Eo as <- <-; cbn [fst snd] in *; rewrite (Un _ Hb) in R; apply H3 in R; destruct (N2 _ R)
       |injection E as <- ->; inversion F as [|? w ? vs' (n'' & Hb' & Hr') F']; subst; cbn [fst snd] in *;
        rewrite (Un _ Hb') in Hr'; apply H1 in Hr'; destruct (N1 _ Hr')]).
    destruct (y_decode (yvt e t) o n) as [[ok v]| |] eqn:D; cbn [bind].
    + destruct ok.
      * rewrite upd_app. specialize (IH ts' (ts0 ++ [t]) (pre ++ [v]) old l).
        rewrite !app_length in IH. cbn [length] in IH. replace (length pre + 1)%nat with (S (length pre)) in IH by lia.
        rewrite <- (app_assoc ts0) in IH. cbn [app] in IH. specialize (IH ltac:(lia) Hx' Hos).
        rewrite IH. clear IH No. pose proof (proj1 (H1 v) eq_refl) as Rv. split.
        -- intros (gs1 & f & gs2 & vs & n' & old1 & o1 & old2 & o' & -> & F & Hb & R & -> & L & ->).
           exists ((name, s) :: gs1), f, gs2, (v :: vs), n', (o :: old1), o1, old2, o'.
           split; [reflexivity|]. split; [constructor; [exists n; cbn [fst snd]; auto|exact F]|]. split; [exact Hb|]. split; [exact R|].
           split; [reflexivity|]. split; [rewrite !zlen_cons; lia|]. rewrite <- app_assoc. reflexivity.
        -- intros (gs1 & f & gs2 & vs & n' & old1 & o1 & old2 & o' & E & F & Hb & R & Eo & L & ->).
           destruct gs1 as [|g gs1]; cbn [app] in E.
           ++ injection E as <- <-. inversion F; subst. destruct old1 as [|? old1]; [|rewrite zlen_cons, zlen_nil in L; pose proof (zlen_nonneg old1); lia].
              injection Eo as <- <-. cbn [fst snd] in *. rewrite (Un _ Hb) in R. apply H3 in R. discriminate.
           ++ injection E as <- ->. inversion F as [|? w ? vs' (n'' & Hb' & Hr') F']; subst. cbn [fst snd] in *.
              rewrite (Un _ Hb') in Hr'. apply H1 in Hr'. assert (w = v) by congruence. subst w.
              destruct old1 as [|o2 old1]; [rewrite zlen_cons, zlen_nil in L; pose proof (zlen_nonneg vs'); lia|].
              injection Eo as <- ->. rewrite !zlen_cons in L. exists gs1, f, gs2, vs', n', old1, o1, old2, o'.
              split; [reflexivity|]. split; [exact F'|]. split; [exact Hb|]. split; [exact R|]. split; [reflexivity|]. split; [lia|].
              rewrite <- app_assoc. reflexivity.
      * clear No. rewrite upd_app. split.
        -- intros E. assert (l = (pre ++ [v]) ++ old) by congruence. subst l. pose proof (proj1 (H3 v) eq_refl) as R.
           exists [], (name, s), gs, [], n, [], o, old, v. cbn [fst snd]. split; [reflexivity|]. split; [constructor|].
           split; [exact G|]. split; [exact R|]. split; [reflexivity|]. split; [reflexivity|]. rewrite <- app_assoc. reflexivity.
        -- intros (gs1 & f & gs2 & vs & n' & old1 & o1 & old2 & o' & E & F & Hb & R & Eo & L & ->).
           destruct gs1 as [|g gs1]; cbn [app] in E.
           ++ injection E as <- <-. inversion F; subst. destruct old1 as [|? old1]; [|rewrite zlen_cons, zlen_nil in L; pose proof (zlen_nonneg old1); lia].
              injection Eo as <- <-. cbn [fst snd] in *. rewrite (Un _ Hb) in R. apply H3 in R. assert (o' = v) by congruence. subst.
              rewrite <- app_assoc. reflexivity.
           ++ injection E as <- ->. inversion F as [|? w ? vs' (n'' & Hb' & Hr') F']; subst. cbn [fst snd] in *.
              rewrite (Un _ Hb') in Hr'. apply H1 in Hr'. discriminate.
    + split; [discriminate|]. intros X. destruct (No ltac:(discriminate) ltac:(discriminate) ltac:(discriminate) X).
    + split; [discriminate|]. intros (gs1 & f & gs2 & vs & n' & old1 & o1 & old2 & o' & E & F & Hb & R & Eo & L & _).
      destruct gs1 as [|g gs1]; cbn [app] in E.
      * injection E as <- <-. inversion F; subst. destruct old1 as [|? old1]; [|rewrite zlen_cons, zlen_nil in L; pose proof (zlen_nonneg old1); lia].
        injection Eo as <- <-. cbn [fst snd] in *. rewrite (Un _ Hb) in R. apply H3 in R. discriminate.
      * injection E as <- ->. inversion F as [|? w ? vs' (n'' & Hb' & Hr') F']; subst. cbn [fst snd] in *.
        rewrite (Un _ Hb') in Hr'. apply H1 in Hr'. discriminate.
Qed.
Theorem refuse_exact t : wf t = true -> forall s, matches t s = true -> same_names t s = true -> refusing t s.
Proof.
  induction t as [n| | |n|n|t n IH|t n IH|t n IH|ci fs IH] using ty_ind'; intros Hwf s Hm Hs;
    destruct s; try discriminate Hm; cbn [matches same_names] in *.
  - apply refuse_bytes.
  - apply refuse_slot.
  - apply refuse_boolean.
  - apply refuse_bitvector.
  - apply refuse_bitlist.
  - apply andb_true_iff in Hm. destruct Hm as [Hn Hm]. assert (n0 = n) by lia. subst. apply refuse_vector.
  - intros old nd v _. apply refuse_list.
  - intros old nd v _. apply refuse_list.
  - apply andb_true_iff in Hs. destruct Hs as [Hn Hs]. apply parts_eqb_eq in Hn.
    pose proof (cw_nonempty _ _ (wf_class _ _ Hwf)) as Ne.
    apply wf_fields in Hwf. pose proof (all2b_len _ _ _ Hm) as L. intros old nd v Ho. destruct old as [| | | |l]; try contradiction Ho.
    cbn [wt] in Ho.
    assert (Hx : Forall2 (fun t (f : string * sty) => exactly e t (snd f) /\ refusing t (snd f)) fs fields).
    { clear - IH Hwf Hm Hs. revert fields Hm Hs. induction IH as [|t fs Ht _ IHf]; intros [|f gs] Hm Hs; try discriminate; constructor.
      - cbn [all2b] in Hm, Hs. apply andb_true_iff in Hm, Hs. apply Forall_inv in Hwf.
        split; [apply decode_exact|apply Ht]; tauto.
      - cbn [all2b] in Hm, Hs. apply andb_true_iff in Hm, Hs. apply IHf; [now apply Forall_inv_tail in Hwf|tauto|tauto]. }
    unfold decode. cbn [yvt y_decode]. rewrite Hn.
    destruct nd as [str|ns|m].
    1,2: destruct fields as [|[nm s'] gs]; [destruct fs; [congruence|discriminate]|];
      cbn [map length seq combine decode_ yget bind]; (split; [discriminate|]); intros H; inversion H as [? ? ? T| | |? ? ? T| |]; contradiction T.
    pose proof (fun r => refuse_parts m fields fs [] [] l r eq_refl Hx Ho) as E1. cbn [app length] in E1. split.
    + destruct (decode_ _ _ _ _) as [[ok r]| |]; cbn [bind]; try discriminate. intros E. injection E as -> <-.
      destruct (proj1 (E1 r) eq_refl) as (gs1 & f & gs2 & vs & n & old1 & o & old2 & o' & -> & F & Hb & R & -> & Lo & ->).
      now apply R_container with (n := n).
    + intros R. inversion R as [? ? ? T| | |? ? ? T| |gs1 f gs2 ? old1 o old2 vs n o' F Hb Rf Lo]; subst; [contradiction T|contradiction T|].
      rewrite (proj2 (E1 (vs ++ o' :: old2))); [reflexivity|]. exists gs1, f, gs2, vs, n, old1, o, old2, o'.
      repeat split; assumption.
Qed.
End Exact.

Lemma container_refuses e t s old node v : container_pair t s -> wt t old ->
  (decode e t old node = Ok (false, v) <-> refuses e s node old v).
Proof.
  intros Hp Ho. apply refuse_exact; [apply is_container_wf; exact (container_pair_container t s Hp)|now apply container_pair_matches|now apply container_pair_names|exact Ho].
Qed.
Lemma part_refuses e t s old node v : wf t = true -> matches t s = true -> same_names t s = true -> wt t old ->
  (decode e t old node = Ok (false, v) <-> refuses e s node old v).
Proof. intros W M N Ho. exact (refuse_exact e t W s M N old node v Ho). Qed.
Lemma container_throws e t s old node : container_pair t s -> wt t old ->
  (decode e t old node = Throw <->
   (forall v, ~ reads_as e s node v) /\ (forall v, ~ refuses e s node old v) /\ ~ breaks e s node).
Proof.
  intros Hp Ho. pose proof (fun v => container_reads e t s old node v Hp Ho) as A.
  pose proof (fun v => container_refuses e t s old node v Hp Ho) as R. pose proof (container_breaks e t s old node Hp Ho) as B.
  destruct (decode e t old node) as [[[] v]| |].
  - split; [discriminate|]. intros (N & _). destruct (N v). now apply A.
  - split; [discriminate|]. intros (_ & N & _). destruct (N v). now apply R.
  - split; [intros _|reflexivity]. split; [intros v X; apply A in X; discriminate|]. split; [intros v X; apply R in X; discriminate|].
    intros X. apply B in X. discriminate.
  - split; [discriminate|]. intros (_ & _ & N). destruct N. now apply B.
Qed.
(** A fork whose first field is read and whose second is refused *)
Definition half_fork (str : list Z) : ynode :=
  YMap [("previous_version", YScalar str); ("current_version", YSeq []); ("epoch", YScalar [49])]%string.
Lemma half_read e old : wt tFork old ->
  exists node v, decode e tFork old node = Ok (false, v) /\ v <> old.
Proof.
  intros Ho. destruct old as [| | | |[|o1 [|o2 [|o3 [|]]]]]; try contradiction Ho; try (cbn in Ho; tauto).
  assert (A1 : decode e tFork (VSeq [o1; o2; o3]) (half_fork [48; 120]) = Ok (false, VSeq [VBytes [0; 0; 0; 0]; o2; o3])) by reflexivity.
  assert (A2 : decode e tFork (VSeq [o1; o2; o3]) (half_fork [48; 120; 49; 49]) = Ok (false, VSeq [VBytes [17; 0; 0; 0]; o2; o3])) by reflexivity.
  destruct o1 as [[|b bs]|x|x|x|x].
  all: try (exists (half_fork [48; 120]); eexists; split; [exact A1|congruence]).
  destruct (Z.eq_dec b 0) as [->|N].
  - exists (half_fork [48; 120; 49; 49]). eexists. split; [exact A2|congruence].
  - exists (half_fork [48; 120]). eexists. split; [exact A1|congruence].
Qed.
