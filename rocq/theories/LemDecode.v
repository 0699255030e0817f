(** decode() on arbitrary nodes. *)
From Coq Require Import ZArith String List Bool Lia ZifyBool ZifyNat.
From Verif Require Import Base SpecSSZ ModelSSZ ModelBytes ModelYaml SpecYaml SpecBytes SpecText SpecObj ModelEth
  SpecPhase0 SpecClasses LemBase LemBits LemBytes LemTy LemPred LemThmCodec LemMatch LemYaml LemText.
Import ListNotations.
Open Scope list_scope.
Open Scope Z_scope.

Lemma yaml_wf_class ci fs : yaml_wf (TClass ci fs) = true ->
  map snd (ci_dec ci) = seq 0 (length fs) /\ Forall (fun t => yaml_wf t = true) fs.
Proof.
  cbn [yaml_wf]. rewrite !andb_true_iff. intros [[[He Hs] _] Hf]. apply parts_eqb_eq in He. apply nats_eqb_eq' in Hs.
  split; [congruence|]. now apply Forall_forall, forallb_forall.
Qed.
Lemma is_container_yaml t : is_container t -> yaml_wf t = true.
Proof.
  assert (F : forall c, forallb (fun x => yaml_wf (snd x)) (all_classes c) = true) by reflexivity.
  intros [n H|n H]; [specialize (F mainnet)|specialize (F minimal)]; rewrite forallb_forall in F; exact (F _ H).
Qed.
Lemma wf_fields ci fs : wf (TClass ci fs) = true -> Forall (fun t => wf t = true) fs.
Proof.
  cbn [wf]. intros H. repeat (apply andb_true_iff in H; destruct H as [H ?]). now apply Forall_forall, forallb_forall.
Qed.
Lemma wf_listv t n : wf (TListV t n) = true -> wf t = true.
Proof. cbn [wf]. rewrite andb_true_iff. tauto. Qed.
Lemma wf_listf t n : wf (TListF t n) = true -> wf t = true.
Proof. cbn [wf]. rewrite andb_true_iff. tauto. Qed.
Lemma vts_nth e fs k d : (k < length fs)%nat -> nth k (map (yvt e) fs) d = yvt e (nth k fs TSlot).
Proof. intros Hk. erewrite nth_error_nth; [reflexivity|]. apply map_nth_error, nth_error_nth', Hk. Qed.
Lemma seq_next (parts : list (string * nat)) name i k n : map snd ((name, i) :: parts) = seq k (n - k) ->
  (k < n)%nat /\ i = k /\ map snd parts = seq (S k) (n - S k).
Proof.
  cbn [map snd]. intros H. destruct (n - k)%nat as [|q] eqn:E; [discriminate|]. cbn [seq] in H. injection H as -> H.
  replace (n - S k)%nat with q by lia. repeat split; [lia|exact H].
Qed.
Lemma seq_done k n : @nil nat = seq k (n - k) -> (n <= k)%nat.
Proof. destruct (n - k)%nat eqn:E; [lia|discriminate]. Qed.

Section Decode.
Variable e : externals.

(** ** The result does not depend on the object *)
Lemma decode_history_parts fs node : forall parts k o1 o2,
  Forall (fun t => forall a b n, wt t a -> wt t b -> same_result (decode e t a n) (decode e t b n)) fs ->
  map snd parts = seq k (length fs - k) -> length o1 = length fs -> length o2 = length fs ->
  (forall i, (i < k)%nat -> nth i o1 (VNum 0) = nth i o2 (VNum 0)) ->
  (forall i, (k <= i < length fs)%nat -> wt (nth i fs TSlot) (nth i o1 (VNum 0)) /\ wt (nth i fs TSlot) (nth i o2 (VNum 0))) ->
  match decode_ (map (yvt e) fs) node parts o1, decode_ (map (yvt e) fs) node parts o2 with
  | Ok (x, l), Ok (y, m) => x = y /\ (x = true -> l = m)
  | Throw, Throw | UB, UB => True
  | _, _ => False
  end.
Proof.
  intros parts. induction parts as [|[name i] parts IH]; intros k o1 o2 Hf Hs L1 L2 Hd Ht.
  - apply seq_done in Hs. cbn [decode_]. split; [reflexivity|]. intros _.
    apply (nth_ext _ _ (VNum 0) (VNum 0)); [lia|]. intros j Hj. apply Hd. lia.
  - apply seq_next in Hs. destruct Hs as (Hk & -> & Hs). cbn [decode_].
    destruct (yget node name) as [n| |]; cbn [bind]; try exact I. rewrite vts_nth by exact Hk.
    rewrite Forall_forall in Hf. pose proof (Hf (nth k fs TSlot) (nth_In _ _ Hk)) as Hfk.
    destruct (Ht k ltac:(lia)) as [W1 W2]. specialize (Hfk _ _ n W1 W2). unfold decode, same_result in Hfk.
    destruct (y_decode _ (nth k o1 _) n) as [[x v]| |], (y_decode _ (nth k o2 _) n) as [[y w]| |];
      try contradiction Hfk; cbn [bind]; try exact I.
    destruct Hfk as [-> Hv]. destruct y; [|split; [reflexivity|discriminate]].
    rewrite (Hv eq_refl). apply (IH (S k)); rewrite ?upd_length; auto.
    + apply Forall_forall. exact Hf.
    + intros j Hj. destruct (Nat.eq_dec j k) as [->|N]; [rewrite !nth_upd_eq by lia; reflexivity|].
      rewrite !nth_upd_neq by lia. apply Hd. lia.
    + intros j Hj. rewrite !nth_upd_neq by lia. apply Ht. lia.
Qed.
Lemma same_result_refl a : same_result a a.
Proof. destruct a as [[x v]| |]; cbn; auto. Qed.
Lemma decode_history t : yaml_wf t = true -> forall a b n, wt t a -> wt t b ->
  same_result (decode e t a n) (decode e t b n).
Proof.
  induction t as [n| | |n|n|t n IH|t n IH|t n IH|ci fs IH] using ty_ind'; intros Hy a b nd Ha Hb;
    unfold decode; cbn [yvt y_decode].
  - unfold bytes_decode. destruct nd; cbn [scalar_decode]; try (cbn; split; [reflexivity|discriminate]).
    apply same_result_refl.
  - unfold slot_decode. destruct nd; cbn [scalar_decode]; try (cbn; split; [reflexivity|discriminate]).
    destruct (text_num e s); cbn; auto. split; [reflexivity|discriminate].
  - unfold boolean_decode. destruct nd; cbn [scalar_decode]; try (cbn; split; [reflexivity|discriminate]).
    destruct (text_bool e s); cbn; auto. split; [reflexivity|discriminate].
  - unfold bitvector_decode. destruct nd; cbn [scalar_decode]; try (cbn; split; [reflexivity|discriminate]).
    apply same_result_refl.
  - unfold bitlist_decode. destruct nd; cbn [scalar_decode]; try (cbn; split; [reflexivity|discriminate]).
    apply same_result_refl.
  - unfold array_decode. destruct nd; try (cbn; split; [reflexivity|discriminate]).
    destruct (negb _); [cbn; split; [reflexivity|discriminate]|apply same_result_refl].
  - unfold vec_decode. destruct nd; try (cbn; split; [reflexivity|discriminate]). apply same_result_refl.
  - unfold vec_decode. destruct nd; try (cbn; split; [reflexivity|discriminate]). apply same_result_refl.
  - destruct a; try contradiction Ha. destruct b; try contradiction Hb. cbn [wt] in Ha, Hb.
    apply yaml_wf_class in Hy. destruct Hy as [Hs Hy].
    pose proof (all2_length _ _ _ Ha) as La. pose proof (all2_length _ _ _ Hb) as Lb.
    assert (Q := decode_history_parts fs nd (ci_dec ci) 0 l l0).
    destruct (decode_ _ _ _ l) as [[x m]| |], (decode_ _ _ _ l0) as [[y m']| |]; cbn [bind same_result];
      (match type of Q with
       | ?A -> ?B -> ?C -> ?D -> ?E -> ?F -> _ =>
           assert (HA : A) by (rewrite Forall_forall in IH, Hy |- *; intros t Ht; apply IH; auto);
           assert (HF : F) by (intros i Hi; split; apply all2_nth; auto; lia);
           rewrite Nat.sub_0_r in Q; specialize (Q HA Hs ltac:(lia) ltac:(lia) ltac:(lia) HF)
       end); try contradiction Q; auto.
    destruct Q as [-> Q]. split; [reflexivity|]. intros E. now rewrite (Q E).
Qed.

(** ** The result can be held by the object *)
Lemma decode_typed_parts fs node : forall parts k o ok l,
  Forall (fun t => forall a n ok v, wt t a -> decode e t a n = Ok (ok, v) -> wt t v) fs ->
  map snd parts = seq k (length fs - k) -> all2 wt fs o ->
  decode_ (map (yvt e) fs) node parts o = Ok (ok, l) -> all2 wt fs l.
Proof.
  intros parts. induction parts as [|[name i] parts IH]; intros k o ok l Hf Hs Ho E.
  - cbn [decode_] in E. assert (l = o) by congruence. now subst.
  - apply seq_next in Hs. destruct Hs as (Hk & -> & Hs). cbn [decode_] in E.
    destruct (yget node name) as [n| |]; cbn [bind] in E; try discriminate. rewrite vts_nth in E by exact Hk.
    destruct (y_decode _ _ n) as [[x v]| |] eqn:D; cbn [bind] in E; try discriminate.
    assert (W : all2 wt fs (upd o k v)).
    { rewrite Forall_forall in Hf. pose proof (Hf (nth k fs TSlot) (nth_In _ _ Hk) _ _ _ _
        (all2_nth _ TSlot (VNum 0) _ _ _ Ho Hk) D) as Wv. clear - Ho Hk Wv. revert o k Ho Hk Wv.
      induction fs as [|t fs IH]; intros [|a o] k Ho Hk Wv; try contradiction Ho; [cbn [length] in Hk; lia|].
      destruct Ho as [Ha Ho]. destruct k; cbn [upd nth] in *; [split; auto|]. split; [exact Ha|].
      apply IH; auto. cbn [length] in Hk. lia. }
    destruct x; [apply (IH (S k) (upd o k v) ok l); auto|]. assert (l = upd o k v) by congruence. now subst.
Qed.
Lemma upd_ok l : forall k x, bytes_ok l -> byte_ok x -> bytes_ok (upd l k x).
Proof.
  induction l as [|a l IH]; intros k x Hl Hx; [destruct k; exact Hl|]. inversion Hl; subst.
  destruct k; cbn [upd]; constructor; auto. now apply IH.
Qed.
Lemma chars_to_byte_ok s x : chars_to_byte s = Ok x -> byte_ok x.
Proof.
  unfold chars_to_byte. destruct (strhex2int s) as [r| |]; cbn [bind]; intros E; try discriminate.
  assert (x = r mod 256) by congruence. subst. unfold byte_ok. apply Z.mod_pos_bound. lia.
Qed.
Lemma from_str_typed s : forall k arr r, bytes_ok arr -> bytes_from_str_loop s k arr = Ok r ->
  bytes_ok r /\ length r = length arr.
Proof.
  induction s as [|a|a b s IH] using pair_ind; intros k arr r Ha E; cbn [bytes_from_str_loop] in E.
  - assert (r = arr) by congruence. subst. auto.
  - destruct (chars_to_byte _) eqn:C; cbn [bind] in E; try discriminate. destruct (_ <? _)%nat; [|discriminate].
    assert (r = upd arr k a0) by congruence. subst. split; [|apply upd_length].
    apply upd_ok; [exact Ha|]. eapply chars_to_byte_ok, C.
  - destruct (chars_to_byte _) eqn:C; cbn [bind] in E; try discriminate. destruct (_ <? _)%nat; [|discriminate].
    apply IH in E; [|apply upd_ok; [exact Ha|]; eapply chars_to_byte_ok, C]. rewrite upd_length in E. exact E.
Qed.
Lemma mapM_typed {A} (P : val -> Prop) (f : A -> outcome val) (l : list A) : forall vs,
  (forall a v, f a = Ok v -> P v) -> mapM f l = Ok vs -> Forall P vs /\ length vs = length l.
Proof.
  induction l as [|a l IH]; intros vs Hf E; cbn [mapM] in E; [assert (vs = []) by congruence; subst; auto|].
  destruct (f a) as [v| |] eqn:F; cbn [bind] in E; try discriminate.
  destruct (mapM f l) as [ws| |]; cbn [bind] in E; try discriminate. assert (vs = v :: ws) by congruence. subst.
  destruct (IH ws Hf eq_refl) as [W L]. split; [constructor; eauto|cbn [length]; lia].
Qed.
Lemma as_typed t : wf t = true -> (forall a n ok v, wt t a -> decode e t a n = Ok (ok, v) -> wt t v) ->
  forall n v, as_T (yvt e t) n = Ok v -> wt t v.
Proof.
  intros Hwf Hd n v. unfold as_T.
  assert (D : y_default (yvt e t) = vt_default (vt t)) by (destruct t; reflexivity). rewrite D.
  destruct (y_decode (yvt e t) (vt_default (vt t)) n) as [[ok w]| |] eqn:E; cbn [bind]; try discriminate.
  destruct ok; [|discriminate]. intros F. assert (v = w) by congruence. subst.
  eapply Hd; [apply (wt_default t Hwf)|exact E].
Qed.

(** ** A decoded node has everything *)
Lemma ymap_get_found m name n : ymap_get m name = Ok n -> In (name, n) m.
Proof.
  induction m as [|[k y] m IH]; cbn [ymap_get]; [discriminate|]. destruct (String.eqb k name) eqn:K.
  - apply String.eqb_eq in K. subst. intros E. left. congruence.
  - intros E. right. auto.
Qed.
Lemma as_complete t s : (forall old n v, decode e t old n = Ok (true, v) -> complete s n) ->
  forall l vs, mapM (as_T (yvt e t)) l = Ok vs -> Forall (complete s) l.
Proof.
  intros Hd l. induction l as [|n l IH]; intros vs E; [constructor|]. cbn [mapM] in E. unfold as_T at 1 in E.
  destruct (y_decode _ _ n) as [[ok w]| |] eqn:D; cbn [bind] in E; try discriminate.
  destruct ok; cbn [bind] in E; [|discriminate].
  destruct (mapM _ l) as [ws| |]; cbn [bind] in E; try discriminate. constructor; [eapply Hd, D|]. eapply IH; reflexivity.
Qed.
Lemma decode_needs fs node : forall parts obj l, decode_ (map (yvt e) fs) node parts obj = Ok (true, l) ->
  (forall p, In p parts -> (snd p < length fs)%nat) ->
  forall p, In p parts -> exists n old v, yget node (fst p) = Ok n /\ decode e (nth (snd p) fs TSlot) old n = Ok (true, v).
Proof.
  intros parts. induction parts as [|[name i] parts IH]; intros obj l E Hb p Hp; [destruct Hp|].
  cbn [decode_] in E. destruct (yget node name) as [n| |] eqn:G; cbn [bind] in E; try discriminate.
  rewrite vts_nth in E by exact (Hb _ (or_introl eq_refl)).
  destruct (y_decode _ _ n) as [[ok v]| |] eqn:D; cbn [bind] in E; try discriminate. destruct ok; [|discriminate].
  destruct Hp as [<-|Hp].
  - exists n. eexists. exists v. split; [exact G|exact D].
  - apply (IH _ _ E); [|exact Hp]. intros q Hq. apply Hb. right. exact Hq.
Qed.
Lemma go_complete m gs :
  (forall i, (i < length gs)%nat -> exists n', In (fst (nth i gs (EmptyString, SUint64)), n') m /\
     complete (snd (nth i gs (EmptyString, SUint64))) n') ->
  (fix go (fs : list (string * sty)) : Prop :=
     match fs with
     | [] => True
     | (name, s') :: fs' => (exists n', In (name, n') m /\ complete s' n') /\ go fs'
     end) gs.
Proof.
  induction gs as [|[name s] gs IH]; intros H; [exact I|]. split.
  - apply (H 0%nat). cbn [length]. lia.
  - apply IH. intros i Hi. apply (H (S i)). cbn [length]. lia.
Qed.
Lemma combine_nth_in (gs : list (string * sty)) : forall k i, (i < length gs)%nat ->
  In (fst (nth i gs (EmptyString, SUint64)), (k + i)%nat) (combine (map fst gs) (seq k (length gs))).
Proof.
  induction gs as [|g gs IH]; intros k i Hi; cbn [length] in Hi; [lia|].
  cbn [map length seq combine]. destruct i; cbn [nth]; [left; rewrite Nat.add_0_r; reflexivity|]. right.
  replace (k + S i)%nat with (S k + i)%nat by lia. apply IH. lia.
Qed.
Lemma all2b_nth {A B} (f : A -> B -> bool) da db l : forall m i, all2b f l m = true -> (i < length l)%nat ->
  f (nth i l da) (nth i m db) = true.
Proof.
  induction l as [|a l IH]; intros [|b m] i H Hi; cbn [all2b length] in *; try discriminate; [lia|].
  apply andb_true_iff in H. destruct H as [Ha H]. destruct i; cbn [nth]; [exact Ha|]. apply IH; [exact H|lia].
Qed.
Lemma all2b_len {A B} (f : A -> B -> bool) l : forall m, all2b f l m = true -> length l = length m.
Proof.
  induction l as [|a l IH]; intros [|b m] H; cbn [all2b length] in *; try discriminate; [reflexivity|].
  apply andb_true_iff in H. destruct H as [_ H]. f_equal. auto.
Qed.
Lemma decode_complete t : wf t = true -> forall s, matches t s = true -> same_names t s = true ->
  forall old n v, decode e t old n = Ok (true, v) -> complete s n.
Proof.
  induction t as [n| | |n|n|t n IH|t n IH|t n IH|ci fs IH] using ty_ind'; intros Hwf s Hm Hs old nd v E;
    destruct s; try discriminate Hm; unfold decode in E; cbn [yvt y_decode] in E; cbn [matches same_names] in *.
  - unfold bytes_decode in E. destruct nd; cbn [scalar_decode] in E; try discriminate E. cbn [complete wf] in *.
    destruct (bytes_from_str _ s) as [l| |] eqn:B; cbn [bind] in E; try discriminate.
    assert (N : bytes_from_str (Z.to_nat n) s <> Throw) by congruence. rewrite hex_throws in N.
    destruct (prefix_0x s) eqn:P; [apply prefix_0x_iff in P; split; [exact P|]; lia|].
    exfalso. apply N. left. intros C. apply prefix_0x_iff in C. congruence.
  - unfold slot_decode in E. destruct nd; cbn [scalar_decode] in E; try discriminate E. exact I.
  - unfold boolean_decode in E. destruct nd; cbn [scalar_decode] in E; try discriminate E. exact I.
  - unfold bitvector_decode in E. destruct nd; cbn [scalar_decode] in E; try discriminate E. cbn [complete].
    unfold bitvector_from_hexstring in E. destruct (prefix_0x s) eqn:P; [|discriminate].
    cbn [negb] in E. destruct (zlen s mod 2 =? 0) eqn:M; [|discriminate]. apply prefix_0x_iff in P. split; [exact P|lia].
  - unfold bitlist_decode in E. destruct nd; cbn [scalar_decode] in E; try discriminate E. cbn [complete].
    unfold bitlist_from_hexstring in E. destruct (prefix_0x s) eqn:P; [|discriminate].
    cbn [negb] in E. destruct (zlen s mod 2 =? 0) eqn:M; [|discriminate]. apply prefix_0x_iff in P. split; [exact P|lia].
  - apply andb_true_iff in Hm. destruct Hm as [Hn Hm]. apply wf_vector in Hwf.
    unfold array_decode in E. destruct nd; try discriminate E. destruct (zlen l =? n) eqn:Z; cbn [negb] in E; [|discriminate].
    destruct (mapM _ l) as [vs| |] eqn:M; cbn [bind] in E; try discriminate. cbn [complete]. split; [lia|].
    eapply as_complete; [|exact M]. exact (IH Hwf s Hm Hs).
  - apply andb_true_iff in Hm. destruct Hm as [Hn Hm]. apply wf_listf in Hwf.
    unfold vec_decode in E. destruct nd; try discriminate E.
    destruct (mapM _ l) as [vs| |] eqn:M; cbn [bind] in E; try discriminate. cbn [complete].
    eapply as_complete; [|exact M]. exact (IH Hwf s Hm Hs).
  - apply andb_true_iff in Hm. destruct Hm as [Hn Hm]. apply wf_listv in Hwf.
    unfold vec_decode in E. destruct nd; try discriminate E.
    destruct (mapM _ l) as [vs| |] eqn:M; cbn [bind] in E; try discriminate. cbn [complete].
    eapply as_complete; [|exact M]. exact (IH Hwf s Hm Hs).
  - apply andb_true_iff in Hs. destruct Hs as [Hn Hs]. apply parts_eqb_eq in Hn.
    pose proof (cw_nonempty _ _ (wf_class _ _ Hwf)) as Ne.
    apply wf_fields in Hwf. pose proof (all2b_len _ _ _ Hm) as L. destruct old; try discriminate E.
    destruct (decode_ _ _ _ l) as [[x m]| |] eqn:D; cbn [bind] in E; try discriminate.
    assert (x = true) by congruence. subst x. rewrite Hn in D.
    assert (Q : forall i, (i < length fields)%nat -> exists n' old' v', yget nd (fst (nth i fields (EmptyString, SUint64))) = Ok n' /\
                  decode e (nth i fs TSlot) old' n' = Ok (true, v')).
    { intros i Hi. pose proof (decode_needs _ _ _ _ _ D) as Q. pose proof (combine_nth_in fields 0 i Hi) as Hin.
      cbn [Nat.add] in Hin. apply (fun H => Q H _ Hin). intros [nm j] Hj. apply combine_names_in in Hj. cbn [snd]. lia. }
    assert (Hc : forall i n' old' v', (i < length fields)%nat -> decode e (nth i fs TSlot) old' n' = Ok (true, v') ->
                  complete (snd (nth i fields (EmptyString, SUint64))) n').
    { intros i n' old' v' Hi. rewrite Forall_forall in IH, Hwf. assert (Hin : In (nth i fs TSlot) fs) by (apply nth_In; lia).
      apply (IH _ Hin (Hwf _ Hin)).
      - apply (all2b_nth (fun t' g => matches t' (snd g)) TSlot (EmptyString, SUint64)); [exact Hm|lia].
      - apply (all2b_nth (fun t' g => same_names t' (snd g)) TSlot (EmptyString, SUint64)); [exact Hs|lia]. }
    destruct nd as [str|ns|m'].
    + exfalso. destruct fields as [|f fields]; [|destruct (Q 0%nat ltac:(cbn [length]; lia)) as (? & ? & ? & G & _); discriminate G].
      destruct fs; [|discriminate L]. apply Ne. reflexivity.
    + exfalso. destruct fields as [|f fields]; [|destruct (Q 0%nat ltac:(cbn [length]; lia)) as (? & ? & ? & G & _); discriminate G].
      destruct fs; [|discriminate L]. apply Ne. reflexivity.
    + cbn [complete]. apply go_complete. intros i Hi. destruct (Q i Hi) as (n' & old' & v' & G & Dn).
      exists n'. split; [apply ymap_get_found; exact G|]. exact (Hc i n' old' v' Hi Dn).
Qed.

(** ** Memory safety *)
Lemma hex_pairs_total s : forall k, Forall (fun ch => 0 <= ch < 128) s -> length s = (2 * k)%nat ->
  exists h, hex_pairs s = Ok h /\ bytes_ok h /\ length h = k.
Proof.
  induction s as [|a|a b s IH] using pair_ind; intros k Hs Hl; cbn [length] in Hl.
  - exists []. repeat split; [constructor|cbn [length]; lia].
  - lia.
  - inversion Hs as [|? ? Ha Hs']; subst. inversion Hs' as [|? ? Hb Hs'']; subst.
    destruct (hextoint_total a Ha) as (x & Ex & Hx & _). destruct (hextoint_total b Hb) as (y & Ey & Hy & _).
    destruct (IH (k - 1)%nat Hs'' ltac:(lia)) as (h & Eh & Hh & Lh).
    cbn [hex_pairs]. rewrite Ex, Ey, Eh. cbn [bind]. eexists. split; [reflexivity|]. split; [|cbn [length]; lia].
    constructor; [|exact Hh]. unfold byte_ok. apply Z.mod_pos_bound. lia.
Qed.
Lemma hex_pairs_app s : forall k t, length s = (2 * k)%nat ->
  hex_pairs (s ++ t) = let* h := hex_pairs s in let* r := hex_pairs t in Ok (h ++ r).
Proof.
  induction s as [|a|a b s IH] using pair_ind; intros k t Hl; cbn [length] in Hl.
  - cbn [app hex_pairs bind]. destruct (hex_pairs t); reflexivity.
  - lia.
  - cbn [app hex_pairs]. rewrite (IH (k - 1)%nat) by lia.
    destruct (hextoint a); cbn [bind]; try reflexivity. destruct (hextoint b); cbn [bind]; try reflexivity.
    destruct (hex_pairs s); cbn [bind]; try reflexivity. destruct (hex_pairs t); reflexivity.
Qed.
Lemma zero_digit_value ch : 0 <= ch < 128 -> forall d, hextoint ch = Ok d -> (d = 0 <-> zero_digit ch).
Proof.
  intros Hc d E. destruct (hextoint_total ch Hc) as (d' & E' & _ & H1 & H2). assert (d' = d) by congruence. subst d'.
  unfold zero_digit. destruct (hex_digit ch) as [x|].
  - rewrite (H1 x eq_refl). split; [intros ->; auto|]. intros [C|C]; congruence.
  - rewrite (H2 eq_refl). tauto.
Qed.
Lemma last_two {A} (d : list A) k : length d = (2 * k)%nat -> (0 < k)%nat -> exists q a b, d = q ++ [a; b] /\ length q = (2 * (k - 1))%nat.
Proof.
  intros Hl Hk. destruct (rev d) as [|b [|a q]] eqn:R.
  - apply (f_equal (@length A)) in R. rewrite rev_length in R. cbn [length] in R. lia.
  - apply (f_equal (@length A)) in R. rewrite rev_length in R. cbn [length] in R. lia.
  - exists (rev q), a, b. split.
    + rewrite <- (rev_involutive d), R. cbn [rev]. rewrite <- app_assoc. reflexivity.
    + apply (f_equal (@length A)) in R. rewrite rev_length in R. cbn [length] in R. rewrite rev_length. lia.
Qed.
Lemma pair_zero x y : 0 <= x < 16 -> 0 <= y < 16 -> ((Z.shiftl x 4 + y) mod 256 = 0 <-> x = 0 /\ y = 0).
Proof. intros Hx Hy. rewrite Z.shiftl_mul_pow2 by lia. rewrite Z.mod_small; lia. Qed.
Lemma bitlist_text_ub n old str : Forall (fun ch => 0 <= ch < 128) str ->
  (decode e (TBitlist n) old (YScalar str) = UB <-> undelimited str).
Proof.
  intros Ha. unfold decode. cbn [yvt y_decode]. unfold bitlist_decode. cbn [scalar_decode]. unfold bitlist_from_hexstring.
  destruct (prefix_0x str) eqn:P; cbn [negb].
  2:{ split; [discriminate|]. intros U. exfalso.
      assert (C : starts_0x str) by (destruct U as [->|(d & a & b & -> & _)]; eexists; reflexivity).
      apply prefix_0x_iff in C. congruence. }
  apply prefix_0x_iff in P. destruct P as [d ->]. inversion Ha as [|? ? _ Ha']; subst. inversion Ha' as [|? ? _ Hd]; subst.
  change (skipn 2 (48 :: 120 :: d)) with d. unfold zlen. cbn [length].
  destruct (Z.eqb_spec (Z.of_nat (S (S (length d))) mod 2) 0) as [M|M]; cbn [negb].
  2:{ split; [discriminate|]. intros U. exfalso. apply M. clear M.
      destruct U as [E|(q & a & b & E & [j Hj] & _)]; injection E as ->; [reflexivity|].
      rewrite app_length, Hj. cbn [length]. lia. }
  assert (Hk : length d = (2 * (length d / 2))%nat) by lia. set (k := (length d / 2)%nat) in *. clearbody k. clear M.
  destruct (hex_pairs_total d k Hd Hk) as (h & Eh & Hh & Lh). rewrite Eh. cbn [bind].
  assert (U : (let* v' := (let* (_, v') := bitlist_deserialize old h in Ok v') in Ok (true, v')) = UB <-> bitlist_deserialize old h = UB).
  { destruct (bitlist_deserialize old h) as [[? ?]| |]; cbn [bind]; split; congruence. }
  rewrite U, bitlist_deserialize_ub by exact Hh. clear U.
  destruct k as [|k].
  - destruct d; [|discriminate Hk]. destruct h; [|discriminate Lh]. split; auto. left. reflexivity.
  - destruct (last_two d (S k) Hk ltac:(lia)) as (q & a & b & -> & Lq).
    apply Forall_app in Hd. destruct Hd as [Hq Hab]. inversion Hab as [|? ? Ba Hb']; subst. inversion Hb' as [|? ? Bb _]; subst.
    rewrite (hex_pairs_app q (S k - 1)%nat) in Eh by exact Lq.
    destruct (hex_pairs_total q (S k - 1)%nat Hq Lq) as (hq & Eq & _). rewrite Eq in Eh. cbn [bind hex_pairs] in Eh.
    destruct (hextoint_total a Ba) as (x & Ex & Hx & _). destruct (hextoint_total b Bb) as (y & Ey & Hy & _).
    rewrite Ex, Ey in Eh. cbn [bind] in Eh.
    assert (h = hq ++ [(Z.shiftl x 4 + y) mod 256]) by congruence. subst h. rewrite last_last.
    rewrite pair_zero by assumption. rewrite (zero_digit_value a Ba x Ex), (zero_digit_value b Bb y Ey). split.
    + intros [C|[Za Zb]]; [destruct hq; discriminate C|]. right. exists q, a, b. repeat split; auto. exists (S k - 1)%nat. lia.
    + intros [E|(q' & a' & b' & E & _ & Za & Zb)].
      * exfalso. injection E as E. destruct q; discriminate E.
      * right. injection E as E. change [a; b] with ([a] ++ [b]) in E. change [a'; b'] with ([a'] ++ [b']) in E.
        rewrite !app_assoc in E. apply app_inj_tail in E. destruct E as [E ->]. apply app_inj_tail in E. destruct E as [_ ->]. auto.
Qed.
Lemma ascii_seq l : ascii (YSeq l) -> Forall ascii l.
Proof. cbn [ascii]. induction l; cbn [fold_right]; [constructor|]. intros [? ?]. constructor; auto. Qed.
Lemma ascii_map m name n : ascii (YMap m) -> In (name, n) m -> ascii n.
Proof.
  cbn [ascii]. induction m as [|p m IH]; cbn [fold_right]; [contradiction|]. intros [Hp Hm] [->|Hi]; auto.
Qed.
Lemma go_delimited m gs :
  (fix go (fs : list (string * sty)) : Prop :=
     match fs with
     | [] => True
     | (name, s') :: fs' => (forall n', In (name, n') m -> delimited s' n') /\ go fs'
     end) gs ->
  forall i, (i < length gs)%nat -> forall n', In (fst (nth i gs (EmptyString, SUint64)), n') m ->
    delimited (snd (nth i gs (EmptyString, SUint64))) n'.
Proof.
  induction gs as [|[name s] gs IH]; intros H i Hi; cbn [length] in Hi; [lia|]. destruct H as [H0 H].
  destruct i; cbn [nth fst snd]; [exact H0|]. apply IH; [exact H|lia].
Qed.
Lemma as_safe t s : wf t = true -> (forall old n, wt t old -> ascii n -> delimited s n -> decode e t old n <> UB) ->
  forall l, Forall ascii l -> Forall (delimited s) l -> mapM (as_T (yvt e t)) l <> UB.
Proof.
  intros Hwf Hd l. induction l as [|n l IH]; intros Ha Hl; cbn [mapM]; [discriminate|].
  inversion Ha; inversion Hl; subst. unfold as_T at 1.
  assert (D : y_default (yvt e t) = vt_default (vt t)) by (destruct t; reflexivity). rewrite D.
  pose proof (Hd (vt_default (vt t)) n (wt_default t Hwf) ltac:(assumption) ltac:(assumption)) as U. unfold decode in U.
  destruct (y_decode _ _ n) as [[ok w]| |]; cbn [bind]; [|discriminate|congruence]. destruct ok; cbn [bind]; [|discriminate].
  specialize (IH ltac:(assumption) ltac:(assumption)). destruct (mapM _ l); cbn [bind]; congruence.
Qed.
Lemma decode_safe_parts fs node : forall parts k o,
  (forall p, In p parts -> forall old n, wt (nth (snd p) fs TSlot) old -> yget node (fst p) = Ok n ->
     decode e (nth (snd p) fs TSlot) old n <> UB) ->
  map snd parts = seq k (length fs - k) -> length o = length fs ->
  (forall i, (k <= i < length fs)%nat -> wt (nth i fs TSlot) (nth i o (VNum 0))) ->
  decode_ (map (yvt e) fs) node parts o <> UB.
Proof.
  intros parts. induction parts as [|[name i] parts IH]; intros k o Hp Hs Lo Ht; cbn [decode_]; [discriminate|].
  apply seq_next in Hs. destruct Hs as (Hk & -> & Hs).
  destruct (yget node name) as [n| |] eqn:G; cbn [bind]; [|discriminate|].
  - rewrite vts_nth by exact Hk.
    pose proof (Hp _ (or_introl eq_refl) (nth k o (VNum 0)) n (Ht k ltac:(lia)) G) as U. cbn [snd] in U. unfold decode in U.
    destruct (y_decode _ _ n) as [[x v]| |]; cbn [bind]; [|discriminate|congruence]. destruct x; [|discriminate].
    apply (IH (S k)); [|exact Hs|rewrite upd_length; exact Lo|].
    + intros p Hi. apply Hp. right. exact Hi.
    + intros j Hj. rewrite nth_upd_neq by lia. apply Ht. lia.
  - exfalso. unfold yget in G. destruct node; try discriminate G. clear - G.
    induction l as [|[k y] l IH]; cbn [ymap_get] in G; [discriminate|]. destruct (String.eqb k name); [discriminate|auto].
Qed.
Lemma decode_safe t : wf t = true -> forall s, matches t s = true -> same_names t s = true ->
  forall old n, wt t old -> ascii n -> delimited s n -> decode e t old n <> UB.
Proof.
  induction t as [n| | |n|n|t n IH|t n IH|t n IH|ci fs IH] using ty_ind'; intros Hwf s Hm Hs old nd Ho Ha Hd;
    destruct s; try discriminate Hm; cbn [matches same_names] in *.
  - unfold decode. cbn [yvt y_decode]. unfold bytes_decode. destruct nd; cbn [scalar_decode]; try discriminate.
    cbn [ascii] in Ha. pose proof (hex_no_ub (Z.to_nat n) s Ha) as U. destruct (bytes_from_str _ s); cbn [bind]; congruence.
  - unfold decode. cbn [yvt y_decode]. unfold slot_decode. destruct nd; cbn [scalar_decode]; try discriminate.
    destruct (text_num e s); discriminate.
  - unfold decode. cbn [yvt y_decode]. unfold boolean_decode. destruct nd; cbn [scalar_decode]; try discriminate.
    destruct (text_bool e s); discriminate.
  - unfold decode. cbn [yvt y_decode]. unfold bitvector_decode. destruct nd; cbn [scalar_decode]; try discriminate.
    unfold bitvector_from_hexstring. destruct (prefix_0x s) eqn:P; cbn [negb]; [|discriminate].
    destruct (Z.eqb_spec (zlen s mod 2) 0) as [M|M]; cbn [negb]; [|discriminate].
    apply prefix_0x_iff in P. destruct P as [d ->]. cbn [ascii] in Ha.
    inversion Ha as [|? ? _ Ha']; subst. inversion Ha' as [|? ? _ Hdd]; subst. change (skipn 2 (48 :: 120 :: d)) with d.
    unfold zlen in M. cbn [length] in M.
    destruct (hex_pairs_total d (length d / 2) Hdd ltac:(lia)) as (h & Eh & _). rewrite Eh. discriminate.
  - destruct nd; [|discriminate|discriminate]. cbn [ascii delimited] in *. rewrite bitlist_text_ub by exact Ha. exact Hd.
  - apply andb_true_iff in Hm. destruct Hm as [Hn Hm]. apply wf_vector in Hwf. unfold decode. cbn [yvt y_decode].
    unfold array_decode. destruct nd; try discriminate. destruct (negb _); [discriminate|]. apply ascii_seq in Ha. cbn [delimited] in Hd.
    pose proof (as_safe t s Hwf (IH Hwf s Hm Hs) l Ha Hd) as U. destruct (mapM _ l); cbn [bind]; congruence.
  - apply andb_true_iff in Hm. destruct Hm as [Hn Hm]. apply wf_listf in Hwf. unfold decode. cbn [yvt y_decode].
    unfold vec_decode. destruct nd; try discriminate. apply ascii_seq in Ha. cbn [delimited] in Hd.
    pose proof (as_safe t s Hwf (IH Hwf s Hm Hs) l Ha Hd) as U. destruct (mapM _ l); cbn [bind]; congruence.
  - apply andb_true_iff in Hm. destruct Hm as [Hn Hm]. apply wf_listv in Hwf. unfold decode. cbn [yvt y_decode].
    unfold vec_decode. destruct nd; try discriminate. apply ascii_seq in Ha. cbn [delimited] in Hd.
    pose proof (as_safe t s Hwf (IH Hwf s Hm Hs) l Ha Hd) as U. destruct (mapM _ l); cbn [bind]; congruence.
  - apply andb_true_iff in Hs. destruct Hs as [Hn Hs]. apply parts_eqb_eq in Hn.
    apply wf_fields in Hwf. pose proof (all2b_len _ _ _ Hm) as L. destruct old; try contradiction Ho.
    cbn [wt] in Ho. pose proof (all2_length _ _ _ Ho) as Lo. unfold decode. cbn [yvt y_decode].
    assert (U : decode_ (map (yvt e) fs) nd (ci_dec ci) l <> UB).
    { apply (decode_safe_parts fs nd (ci_dec ci) 0 l); [| |lia|intros i Hi; apply all2_nth; [exact Ho|lia]].
      - intros [name i] Hi old n Hwo G. cbn [fst snd] in *. rewrite Hn in Hi. apply combine_names_in in Hi.
        destruct Hi as [Bi En]. rewrite Nat.sub_0_r in En.
        destruct nd as [| |m]; try discriminate G. cbn [yget] in G. apply ymap_get_found in G.
        assert (Hin : In (nth i fs TSlot) fs) by (apply nth_In; lia).
        rewrite Forall_forall in IH, Hwf.
        apply (IH _ Hin (Hwf _ Hin) (snd (nth i fields (EmptyString, SUint64)))).
        + apply (all2b_nth (fun t' g => matches t' (snd g)) TSlot (EmptyString, SUint64)); [exact Hm|lia].
        + apply (all2b_nth (fun t' g => same_names t' (snd g)) TSlot (EmptyString, SUint64)); [exact Hs|lia].
        + exact Hwo.
        + exact (ascii_map m name n Ha G).
        + apply (go_delimited m fields Hd i ltac:(lia) n).
          rewrite (nth_indep _ (EmptyString, SUint64) (name, SUint64)) by lia. rewrite En. exact G.
      - rewrite Hn, combine_snd, Nat.sub_0_r. f_equal. lia. }
    destruct (decode_ _ _ _ l) as [[? ?]| |]; cbn [bind]; congruence.
Qed.
(** Without bitlists there is no condition. *)
Lemma no_bitlist_delimited t : has_bitlist t = false -> forall s, matches t s = true -> forall n, delimited s n.
Proof.
  induction t as [n| | |n|n|t n IH|t n IH|t n IH|ci fs IH] using ty_ind'; intros Hb s Hm nd;
    destruct s; try discriminate Hm; try discriminate Hb; cbn [matches has_bitlist delimited] in *; try exact I.
  - apply andb_true_iff in Hm. destruct nd; auto. apply Forall_forall. intros x _. apply IH; tauto.
  - apply andb_true_iff in Hm. destruct nd; auto. apply Forall_forall. intros x _. apply IH; tauto.
  - apply andb_true_iff in Hm. destruct nd; auto. apply Forall_forall. intros x _. apply IH; tauto.
  - destruct nd as [| |m]; auto. revert fields Hm. induction IH as [|t fs Ht _ IHf]; intros [|[name s] gs] Hm; auto; try discriminate Hm.
    cbn [existsb all2b] in Hb, Hm. apply orb_false_iff in Hb. apply andb_true_iff in Hm. cbn [snd] in Hm. split.
    + intros n' _. apply Ht; tauto.
    + apply IHf; tauto.
Qed.

Hypothesis Hfits : fits e.
Lemma decode_typed t : wf t = true -> yaml_wf t = true -> forall a n ok v,
  wt t a -> decode e t a n = Ok (ok, v) -> wt t v.
Proof.
  induction t as [n| | |n|n|t n IH|t n IH|t n IH|ci fs IH] using ty_ind'; intros Hwf Hy a nd ok v Ha E;
    unfold decode in E; cbn [yvt y_decode] in E.
  - unfold bytes_decode in E. destruct nd; cbn [scalar_decode] in E; try (assert (v = a) by congruence; subst; exact Ha).
    destruct (bytes_from_str _ s) as [l| |] eqn:B; cbn [bind] in E; try discriminate.
    assert (v = VBytes l) by congruence. subst. unfold bytes_from_str in B. destruct (negb _); [discriminate|].
    destruct (_ >? _); [discriminate|]. apply from_str_typed in B; [|apply bytes_ok_repeat0].
    rewrite repeat_length in B. cbn [wt wf] in *. split; [unfold zlen; lia|tauto].
  - unfold slot_decode in E. destruct nd; cbn [scalar_decode] in E; try (assert (v = a) by congruence; subst; exact Ha).
    destruct (text_num e s) as [x|] eqn:T; [|assert (v = a) by congruence; subst; exact Ha].
    assert (v = VNum x) by congruence. subst. exact (Hfits _ _ T).
  - unfold boolean_decode in E. destruct nd; cbn [scalar_decode] in E; try (assert (v = a) by congruence; subst; exact Ha).
    destruct (text_bool e s) as [x|] eqn:T; [|assert (v = a) by congruence; subst; exact Ha].
    assert (v = VBool x) by congruence. subst. exact I.
  - unfold bitvector_decode in E. destruct nd; cbn [scalar_decode] in E; try (assert (v = a) by congruence; subst; exact Ha).
    unfold bitvector_from_hexstring in E. destruct (negb _); [discriminate|]. destruct (negb _); [discriminate|].
    destruct (hex_pairs _) as [h| |]; cbn [bind] in E; try discriminate.
    assert (v = VBits (bv_outer n h 0 (repeat false (Z.to_nat n)))) by congruence. subst. cbn [wt wf] in *.
    unfold zlen. rewrite bv_outer_length, repeat_length. lia.
  - unfold bitlist_decode in E. destruct nd; cbn [scalar_decode] in E; try (assert (v = a) by congruence; subst; exact Ha).
    unfold bitlist_from_hexstring in E. destruct (negb _); [discriminate|]. destruct (negb _); [discriminate|].
    destruct (hex_pairs _) as [h| |]; cbn [bind] in E; try discriminate.
    unfold bitlist_deserialize in E. destruct (_ =? _); [discriminate|]. destruct (_ >? _); [discriminate|].
    cbn [bind] in E. assert (exists l, v = VBits l) as [l ->] by (eexists; symmetry; injection E; eauto). exact I.
  - unfold array_decode in E. destruct nd; try (assert (v = a) by congruence; subst; exact Ha).
    destruct (zlen l =? n) eqn:Z; cbn [negb] in E; [|assert (v = a) by congruence; subst; exact Ha].
    destruct (mapM _ l) as [vs| |] eqn:M; cbn [bind] in E; try discriminate. assert (v = VSeq vs) by congruence. subst.
    apply wf_vector in Hwf. cbn [yaml_wf] in Hy.
    apply (mapM_typed (wt t)) in M; [|exact (as_typed t Hwf (IH Hwf Hy))]. cbn [wt]. unfold zlen in *. split; [lia|tauto].
  - unfold vec_decode in E. destruct nd; try (assert (v = a) by congruence; subst; exact Ha).
    destruct (mapM _ l) as [vs| |] eqn:M; cbn [bind] in E; try discriminate. assert (v = VSeq vs) by congruence. subst.
    apply wf_listf in Hwf. cbn [yaml_wf] in Hy.
    apply (mapM_typed (wt t)) in M; [|exact (as_typed t Hwf (IH Hwf Hy))]. tauto.
  - unfold vec_decode in E. destruct nd; try (assert (v = a) by congruence; subst; exact Ha).
    destruct (mapM _ l) as [vs| |] eqn:M; cbn [bind] in E; try discriminate. assert (v = VSeq vs) by congruence. subst.
    apply wf_listv in Hwf. cbn [yaml_wf] in Hy.
    apply (mapM_typed (wt t)) in M; [|exact (as_typed t Hwf (IH Hwf Hy))]. tauto.
  - destruct a; try contradiction Ha. apply yaml_wf_class in Hy. destruct Hy as [Hs Hy]. apply wf_fields in Hwf.
    destruct (decode_ _ _ _ l) as [[x m]| |] eqn:D; cbn [bind] in E; try discriminate.
    assert (v = VSeq m) by congruence. subst. cbn [wt] in *.
    apply (decode_typed_parts fs nd (ci_dec ci) 0 l x m); auto.
    + rewrite Forall_forall in *. intros u Hu. exact (IH u Hu (Hwf u Hu) (Hy u Hu)).
    + rewrite Nat.sub_0_r. exact Hs.
Qed.
End Decode.
