(** A failed deserialization leaves what SpecRemain says. *)
From Coq Require Import ZArith String List Bool Lia.
From Coq Require Import ZifyBool ZifyNat.
From Verif Require Import Base SpecSSZ ModelSSZ SpecObj SpecClasses LemBase LemTy LemMatch SpecWire LemWire LemThmCodec SpecRemain.
Import ListNotations.
Open Scope list_scope.
Open Scope Z_scope.

Lemma slice_infix b i j c : slice b i j = Ok c -> infix c b.
Proof.
  unfold slice. destruct (_ && _); [|discriminate]. intros E. injection E as <-.
  exists (firstn (Z.to_nat i) b), (skipn (Z.to_nat (j - i)) (skipn (Z.to_nat i) b)).
  now rewrite firstn_skipn, firstn_skipn.
Qed.
Lemma infix_refl b : infix b b.
Proof. exists [], []. now rewrite app_nil_r. Qed.
Lemma infix_ok c b : infix c b -> bytes_ok b -> bytes_ok c.
Proof.
  intros (p & q & ->) Hb. unfold bytes_ok in *. apply Forall_app in Hb as [_ Hb]. now apply Forall_app in Hb as [Hb _].
Qed.

(** *** The loop over the parts *)
Definition olist (last : option (nat * vtable)) : list (nat * vtable) :=
  match last with None => [] | Some x => [x] end.
Definition traced (b : list Z) (set : list (nat * vtable)) (obj obj' : list val) (bad k : nat) : Prop :=
  nth k obj' (VSeq []) = nth k obj (VSeq []) \/
  exists p c, In (k, p) set /\ infix c b /\
    (vt_des p (nth k obj (VSeq [])) c = Ok (true, nth k obj' (VSeq [])) \/
     (k = bad /\ vt_des p (nth k obj (VSeq [])) c = Ok (false, nth k obj' (VSeq [])))).

Lemma call_trace p k obj b i j ok obj' : (k < length obj)%nat ->
  call_des p k obj b i j = Ok (ok, obj') ->
  exists c v, infix c b /\ vt_des p (nth k obj (VSeq [])) c = Ok (ok, v) /\ obj' = upd obj k v.
Proof.
  intros Hk. unfold call_des. destruct (slice b i j) as [c| |] eqn:Es; cbn [bind]; try discriminate.
  rewrite (nth_indep obj (vt_default p) (VSeq [])) by auto.
  destruct (vt_des p _ c) as [[ok' v]| |] eqn:Ed; cbn [bind]; try discriminate.
  intros E. injection E as -> <-. exists c, v. split; [now apply slice_infix in Es|auto].
Qed.

Lemma trace_weaken b set set' obj obj' bad k :
  (forall x, In x set -> In x set') -> traced b set obj obj' bad k -> traced b set' obj obj' bad k.
Proof. intros Hs [E|(p & c & Hi & Hc)]; [now left|right]. exists p, c. auto. Qed.

(** After a successful read at [k] the rest of the trace is about other parts. *)
Lemma trace_step b k p c v set obj obj' bad :
  (k < length obj)%nat -> infix c b -> vt_des p (nth k obj (VSeq [])) c = Ok (true, v) ->
  ~ In k (map fst set) ->
  (forall j, traced b set (upd obj k v) obj' bad j) ->
  forall j, traced b ((k, p) :: set) obj obj' bad j.
Proof.
  intros Hk Hc Hd Hn Ht j. destruct (Nat.eq_dec k j) as [<-|Hj].
  - destruct (Ht k) as [E|(p' & c' & Hi & _)].
    + rewrite nth_upd_eq in E by auto. right. exists p, c. split; [now left|]. split; [auto|]. left. now rewrite E.
    + destruct Hn. change k with (fst (k, p')). now apply in_map.
  - destruct (Ht j) as [E|(p' & c' & Hi & Hc' & Hd')]; rewrite nth_upd_neq in * by auto; [now left|].
    right. exists p', c'. split; [now right|]. auto.
Qed.
Lemma trace_fail b k p c v set obj :
  (k < length obj)%nat -> infix c b -> vt_des p (nth k obj (VSeq [])) c = Ok (false, v) -> In (k, p) set ->
  forall j, traced b set obj (upd obj k v) k j.
Proof.
  intros Hk Hc Hd Hi j. destruct (Nat.eq_dec k j) as [<-|Hj].
  - right. exists p, c. rewrite nth_upd_eq by auto. auto.
  - left. now rewrite nth_upd_neq.
Qed.

Lemma loop_trace b F : forall parts it lo last obj ok obj',
  NoDup (map fst (olist last ++ parts)) ->
  (forall k p, In (k, p) (olist last ++ parts) -> (k < length obj)%nat) ->
  deserialize_loop b F parts it lo last obj = Ok (ok, obj') ->
  length obj' = length obj /\ exists bad, forall k, traced b (olist last ++ parts) obj obj' bad k.
Proof.
  assert (Triv : forall set obj, length obj = length obj /\ exists bad, forall k, traced b set obj obj bad k).
  { intros. split; auto. exists 0%nat. intros k. now left. }
  induction parts as [|[k p] r IH]; intros it lo last obj ok obj' Hnd Hlt E; cbn [deserialize_loop] in E.
  - destruct (lo =? 0). { injection E as _ <-. apply Triv. }
    destruct last as [[k p]|]; [|discriminate]. cbn [olist app] in *.
    assert (Hk : (k < length obj)%nat) by (apply (Hlt k p); now left).
    apply call_trace in E as (c & v & Hc & Hd & ->); auto.
    split; [apply upd_length|]. exists k. intros j. destruct ok.
    + apply trace_step with c v; auto. intros j'. now left.
    + apply trace_fail with p c; auto. now left.
  - assert (Hk : (k < length obj)%nat) by (apply (Hlt k p); apply in_or_app; right; now left).
    destruct (negb (vt_size p =? 0)).
    + destruct (_ <? _). { injection E as _ <-. apply Triv. }
      destruct (call_des p k obj b it (it + vt_size p)) as [[ok1 obj1]| |] eqn:Ec; cbn [bind] in E; try discriminate.
      apply call_trace in Ec as (c & v & Hc & Hd & ->); auto. destruct ok1.
      * rewrite map_app in Hnd. cbn [map fst] in Hnd. apply NoDup_remove in Hnd as [Hnd' Hni]. rewrite <- map_app in Hnd', Hni.
        apply IH in E as [El (bad & Ht)]; auto.
        2:{ intros k' p' Hi. rewrite upd_length. apply (Hlt k' p'). apply in_app_or in Hi as [Hi|Hi]; apply in_or_app; [now left|right; now right]. }
        rewrite upd_length in El. split; auto. exists bad. intros j.
        apply trace_weaken with ((k, p) :: olist last ++ r).
        { intros x [<-|Hi]; [apply in_or_app; right; now left|]. apply in_app_or in Hi as [Hi|Hi]; apply in_or_app; [now left|right; now right]. }
        now apply trace_step with c v.
      * injection E as _ <-. split; [apply upd_length|]. exists k. apply trace_fail with p c; auto. apply in_or_app. right. now left.
    + destruct (_ <? _). { injection E as _ <-. apply Triv. }
      destruct (slice b it (it + 4)) as [w| |]; cbn [bind] in E; try discriminate.
      destruct (_ <? _). { injection E as _ <-. apply Triv. }
      destruct (negb (lo =? 0)).
      * destruct (_ <? _). { injection E as _ <-. apply Triv. }
        destruct last as [[k' p']|]; [|discriminate]. cbn [olist app map fst] in Hnd, Hlt |- *.
        assert (Hk' : (k' < length obj)%nat) by (apply (Hlt k' p'); now left).
        destruct (call_des p' k' obj b lo (le_val w)) as [[ok1 obj1]| |] eqn:Ec; cbn [bind] in E; try discriminate.
        apply call_trace in Ec as (c & v & Hc & Hd & ->); auto. destruct ok1.
        -- inversion Hnd as [|? ? Hni Hnd']; subst.
           apply IH in E as [El (bad & Ht)]; auto.
           2:{ intros k1 p1 Hi. rewrite upd_length. apply (Hlt k1 p1). now right. }
           rewrite upd_length in El. split; auto. exists bad. intros j. now apply trace_step with c v.
        -- injection E as _ <-. split; [apply upd_length|]. exists k'. apply trace_fail with p' c; auto. now left.
      * destruct (negb _). { injection E as _ <-. apply Triv. }
        apply IH in E as [El (bad & Ht)].
        -- split; auto. exists bad. intros j. apply trace_weaken with (2 := Ht j). intros x Hx. apply in_or_app. now right.
        -- rewrite map_app in Hnd. revert Hnd. generalize (map fst (olist last)). clear. induction l as [|x l IHl]; cbn [app]; auto.
           intros Hnd. inversion Hnd; auto.
        -- intros k1 p1 Hi. apply (Hlt k1 p1). apply in_or_app. now right.
Qed.

(** From positions to lists. *)
Lemma all_positions {A} (P : A -> val -> val -> Prop) (d : A) : forall la lo lv,
  length lo = length la -> length lv = length la ->
  (forall k, (k < length la)%nat -> P (nth k la d) (nth k lo (VSeq [])) (nth k lv (VSeq []))) ->
  Forall3 P la lo lv.
Proof.
  induction la as [|a la IH]; intros [|o lo] [|v lv] Hl1 Hl2 Hp; try discriminate; constructor.
  - apply (Hp 0%nat). cbn. lia.
  - apply IH; auto. intros k Hk. apply (Hp (S k)). cbn [length]. lia.
Qed.
Lemma by_position {A} (P Q : A -> val -> val -> Prop) (d : A) : forall la lo lv bad,
  length lo = length la -> length lv = length la ->
  (forall k, (k < length la)%nat ->
     P (nth k la d) (nth k lo (VSeq [])) (nth k lv (VSeq [])) \/
     (k = bad /\ Q (nth k la d) (nth k lo (VSeq [])) (nth k lv (VSeq [])))) ->
  Forall3 P la lo lv \/
  exists la1 a la2 lo1 o lo2 lv1 v lv2, la = la1 ++ a :: la2 /\ lo = lo1 ++ o :: lo2 /\ lv = lv1 ++ v :: lv2 /\
    Forall3 P la1 lo1 lv1 /\ Q a o v /\ Forall3 P la2 lo2 lv2.
Proof.
  induction la as [|a la IH]; intros [|o lo] [|v lv] bad Hl1 Hl2 Hp; try discriminate; [left; constructor|].
  destruct bad as [|bad].
  - assert (T : Forall3 P la lo lv).
    { apply (all_positions P d); auto. intros k Hk. destruct (Hp (S k)) as [X|[X _]]; [cbn [length]; lia|exact X|lia]. }
    destruct (Hp 0%nat) as [X|[_ X]]; [cbn; lia| |].
    + left. now constructor.
    + right. exists [], a, la, [], o, lo, [], v, lv. repeat split; auto. constructor.
  - destruct (IH lo lv bad) as [F|(la1 & a' & la2 & lo1 & o' & lo2 & lv1 & v' & lv2 & -> & -> & -> & F1 & FQ & F2)]; auto.
    + intros k Hk. destruct (Hp (S k)) as [X|[X Y]]; [cbn [length]; lia|now left|]. right. split; [lia|exact Y].
    + destruct (Hp 0%nat) as [X|[X _]]; [cbn; lia| |discriminate]. left. now constructor.
    + destruct (Hp 0%nat) as [X|[X _]]; [cbn; lia| |discriminate].
      right. exists (a :: la1), a', la2, (o :: lo1), o', lo2, (v :: lv1), v', lv2. repeat split; auto. now constructor.
Qed.

(** *** Lists *)
Section Element.
Variables (t : ty) (s : sty).
Hypothesis Hwf : wf t = true.
Hypothesis Hm : matches t s = true.

Lemma element_read b c v ok : bytes_ok b -> infix c b -> vt_des (vt t) (vt_default (vt t)) c = Ok (ok, v) -> ok = true -> read_from b s v.
Proof.
  intros Hb Hc E ->. exists c. split; auto.
  apply (acceptance t s (vt_default (vt t)) c v Hwf Hm); auto; [exact (wt_default t Hwf)|]. now apply infix_ok in Hc.
Qed.
Lemma listf_left b : bytes_ok b -> forall fuel i arr ok arr', Forall (read_from b s) arr ->
  listf_des_loop fuel (vt t) b i arr = Ok (ok, arr') -> Forall (read_from b s) arr'.
Proof.
  intros Hb. induction fuel as [|fuel IH]; intros i arr ok arr' Ha E; cbn [listf_des_loop] in E;
    (destruct (i =? zlen b); [injection E as _ <-; exact Ha|]); [discriminate|].
  destruct (slice b i _) as [c| |] eqn:Es; cbn [bind] in E; try discriminate.
  destruct (vt_des _ _ c) as [[ok1 v]| |] eqn:Ed; cbn [bind] in E; try discriminate.
  destruct ok1; [|injection E as _ <-; exact Ha].
  apply IH in E; auto. apply Forall_app. split; auto. constructor; [|constructor].
  apply (element_read b c v true); auto. now apply slice_infix in Es.
Qed.
Lemma listv_left b F : bytes_ok b -> forall fuel it lo arr ok arr', Forall (read_from b s) arr ->
  listv_des_loop fuel (vt t) b F it lo arr = Ok (ok, arr') -> Forall (read_from b s) arr'.
Proof.
  intros Hb.
  assert (Fin : forall c v arr, infix c b -> vt_des (vt t) (vt_default (vt t)) c = Ok (true, v) -> Forall (read_from b s) arr ->
    Forall (read_from b s) (arr ++ [v])).
  { intros c v arr Hc Ed Ha. apply Forall_app. split; auto. constructor; [|constructor]. now apply (element_read b c v true). }
  assert (Last : forall lo arr ok arr', Forall (read_from b s) arr ->
    (let* c := slice b lo (zlen b) in let* (ok, v) := vt_des (vt t) (vt_default (vt t)) c in
     if ok then Ok (true, arr ++ [v]) else Ok (false, arr)) = Ok (ok, arr') -> Forall (read_from b s) arr').
  { intros lo arr ok arr' Ha E.
    destruct (slice b lo _) as [c| |] eqn:Es; cbn [bind] in E; try discriminate.
    destruct (vt_des _ _ c) as [[ok1 v]| |] eqn:Ed; cbn [bind] in E; try discriminate.
    destruct ok1; injection E as _ <-; [|exact Ha]. apply Fin with c; auto. now apply slice_infix in Es. }
  induction fuel as [|fuel IH]; intros it lo arr ok arr' Ha E; cbn [listv_des_loop] in E;
    (destruct (it =? F); [now apply Last in E|]); [discriminate|].
  destruct (_ >? _); [injection E as _ <-; exact Ha|].
  destruct (slice b it _) as [w| |]; cbn [bind] in E; try discriminate.
  destruct (_ <? _); [injection E as _ <-; exact Ha|]. destruct (_ <? _); [injection E as _ <-; exact Ha|].
  destruct (slice b lo _) as [c| |] eqn:Es; cbn [bind] in E; try discriminate.
  destruct (vt_des _ _ c) as [[ok1 v]| |] eqn:Ed; cbn [bind] in E; try discriminate.
  destruct ok1; [|injection E as _ <-; exact Ha].
  apply IH in E; auto. apply Fin with c; auto. now apply slice_infix in Es.
Qed.

(** *** Vectors *)
Hypothesis Hrec : forall old b v, wt t old -> bytes_ok b -> deserialize t old b = Ok (false, v) -> remains s b old v.
Lemma vector_left b : bytes_ok b -> forall arr i ok arr', Forall (wt t) arr ->
  vector_des_loop (vt t) b i arr = Ok (ok, arr') ->
  if ok then length arr' = length arr /\ Forall (read_from b s) arr'
  else exists o1 o o2 l1 v c, arr = o1 ++ o :: o2 /\ arr' = l1 ++ v :: o2 /\ length l1 = length o1 /\
         Forall (read_from b s) l1 /\ infix c b /\ remains s c o v.
Proof.
  intros Hb. induction arr as [|o arr IH]; intros i ok arr' Ha E; cbn [vector_des_loop] in E.
  { injection E as <- <-. split; [reflexivity|constructor]. }
  destruct (slice b _ _) as [c| |] eqn:Es; cbn [bind] in E; try discriminate.
  apply slice_infix in Es.
  destruct (vt_des _ _ c) as [[ok1 v]| |] eqn:Ed; cbn [bind] in E; try discriminate.
  destruct ok1.
  - assert (Rv : read_from b s v).
    { exists c. split; auto. apply (acceptance t s o c v Hwf Hm); [exact (Forall_inv Ha)|now apply infix_ok in Es|exact Ed]. }
    destruct (vector_des_loop (vt t) b (i + 1) arr) as [[ok2 r]| |] eqn:Er; cbn [bind] in E; try discriminate.
    injection E as <- <-. apply IH in Er; [|exact (Forall_inv_tail Ha)]. destruct ok2.
    + destruct Er as [El Er]. split; [cbn [length]; lia|now constructor].
    + destruct Er as (o1 & o' & o2 & l1 & v' & c' & -> & -> & El & F & Hc & R).
      exists (o :: o1), o', o2, (v :: l1), v', c'. repeat split; auto. cbn [length]. lia.
  - injection E as <- <-. exists [], o, arr, [], v, c. repeat split; auto.
    apply Hrec; [exact (Forall_inv Ha)|now apply infix_ok in Es|exact Ed].
Qed.
End Element.

Theorem failed_remains t : wf t = true -> forall s, matches t s = true ->
  forall old b v, wt t old -> bytes_ok b -> deserialize t old b = Ok (false, v) -> remains s b old v.
Proof.
  assert (Leaf : forall t s old b v, is_leaf t = true -> is_list s = false ->
    deserialize t old b = Ok (false, v) -> remains s b old v).
  { intros t' s old b v Hl Hs E. apply leaf_unchanged in E; auto. subst. now constructor. }
  induction t using ty_ind'; intros Hwf s Hm old b v Ho Hb E; destruct s; try discriminate Hm;
    try (eapply Leaf; eauto; reflexivity).
  - (* Vector *)
    cbn [matches wf] in *. rewrite !andb_true_iff in *. destruct Hm as [_ Hm], Hwf as [[Hwf _] _].
    unfold deserialize in E. cbn [vt vt_des] in E. unfold vector_deserialize in E.
    destruct (negb _). { injection E as <-. now constructor. }
    destruct old; try discriminate. cbn [wt] in Ho. destruct Ho as [_ Ho].
    destruct (vector_des_loop (vt t) b 0 l) as [[ok arr]| |] eqn:El; cbn [bind] in E; try discriminate.
    injection E as -> <-. apply (vector_left t s Hwf Hm) in El; auto.
    destruct El as (o1 & o & o2 & l1 & v & c & -> & -> & El & F & Hc & R). now apply R_vector with c.
  - (* ListF *)
    cbn [matches wf] in *. rewrite !andb_true_iff in *. destruct Hm as [_ Hm], Hwf as [Hwf _].
    unfold deserialize in E. cbn [vt vt_des] in E. unfold listf_deserialize in E.
    destruct (_ =? 0); [discriminate|]. destruct (negb _). { injection E as <-. constructor. constructor. }
    destruct (listf_des_loop _ (vt t) b 0 []) as [[ok arr]| |] eqn:El; cbn [bind] in E; try discriminate.
    injection E as -> <-. apply (listf_left t s Hwf Hm) in El; auto. now constructor.
  - (* ListV *)
    cbn [matches wf] in *. rewrite !andb_true_iff in *. destruct Hm as [_ Hm], Hwf as [Hwf _].
    unfold deserialize in E. cbn [vt vt_des] in E. unfold listv_deserialize in E.
    destruct (_ =? 0); [discriminate|]. destruct (_ <? _). { injection E as <-. constructor. constructor. }
    destruct (slice b 0 4) as [w| |]; cbn [bind] in E; try discriminate.
    destruct (_ <? _). { injection E as <-. constructor. constructor. }
    destruct (_ <? _). { injection E as <-. constructor. constructor. }
    destruct (listv_des_loop _ (vt t) b _ _ _ []) as [[ok arr]| |] eqn:El; cbn [bind] in E; try discriminate.
    injection E as -> <-. apply (listv_left t s Hwf Hm) in El; auto. now constructor.
  - (* class *)
    apply wf_class in Hwf. destruct Hwf. cbn [matches] in Hm. apply all2b_Forall2 in Hm.
    destruct old as [| | | |old]; cbn [wt] in Ho; try contradiction. apply all2_Forall2 in Ho.
    unfold deserialize in E. cbn [vt vt_des class_deserialize] in E. rewrite cw_des in E.
    destruct (deserialize_ _ _ _) as [[ok obj]| |] eqn:El; cbn [bind] in E; try discriminate.
    injection E as -> <-. unfold deserialize_ in El.
    pose proof (Forall2_len _ _ _ Hm) as L1. pose proof (Forall2_len _ _ _ Ho) as L2.
    set (n := length fs) in *. set (vts := map vt fs) in *.
    apply loop_trace in El.
    + destruct El as [Ll (bad & Ht)].
      destruct (by_position (fun f => old_or_read b (snd f)) (fun f o v => exists c, infix c b /\ remains (snd f) c o v)
        (EmptyString, SUint64) fields old obj bad) as [F|F]; try lia.
      * intros k Hk. specialize (Ht k).
        assert (Hkn : (k < n)%nat) by lia.
        assert (Mk : matches (nth k fs TSlot) (snd (nth k fields (EmptyString, SUint64))) = true).
        { revert Hkn. subst n. clear - Hm. revert k. induction Hm as [|t' g fs gs M _ IH]; intros k Hk; cbn [length] in *; [lia|].
          destruct k; [exact M|]. apply IH. lia. }
        assert (Wk : wt (nth k fs TSlot) (nth k old (VSeq []))).
        { revert Hkn. subst n. clear - Ho. revert k. induction Ho as [|t' g fs gs M _ IH]; intros k Hk; cbn [length] in *; [lia|].
          destruct k; [exact M|]. apply IH. lia. }
        assert (Fk : wf (nth k fs TSlot) = true).
        { rewrite Forall_forall in cw_fields. apply cw_fields, nth_In. exact Hkn. }
        destruct Ht as [Eq|(p & c & Hi & Hc & Hd)]; [left; left; exact Eq|].
        assert (p = vt (nth k fs TSlot)).
        { cbn [olist app] in Hi. unfold pick_des in Hi. apply in_map_iff in Hi as (k0 & Ek & _). injection Ek as -> <-.
          unfold vts. rewrite (nth_indep _ null_vtable (vt TSlot)) by (rewrite map_length; exact Hkn). now rewrite map_nth. }
        subst p. destruct Hd as [Hd|[Hkb Hd]].
        -- left. right. exists c. split; auto. refine (proj1 (acceptance _ _ _ c _ Fk Mk Wk _) Hd). now apply infix_ok in Hc.
        -- right. split; [exact Hkb|]. exists c. split; auto. rewrite Forall_forall in H.
           apply (H (nth k fs TSlot)); auto; [apply nth_In; exact Hkn|now apply infix_ok in Hc].
      * now apply R_fields.
      * destruct F as (la1 & a & la2 & lo1 & o & lo2 & lv1 & v & lv2 & -> & -> & -> & F1 & (c & Hc & R) & F2).
        now apply R_field with c.
    + cbn [olist app]. unfold pick_des. rewrite map_map. cbn [fst]. rewrite map_id. apply seq_NoDup.
    + cbn [olist app]. unfold pick_des. intros k p Hi. apply in_map_iff in Hi as (k0 & Ek & Hs). injection Ek as -> _.
      apply in_seq in Hs. lia.
Qed.

(** *** Limits play no part *)
Lemma limits_vt : forall t t', same_but_limits t t' -> vt t = vt t'.
Proof.
  fix IH 3. intros t t' [u|m n|u u' n E|u u' m n E|u u' m n E|ci fs fs' E]; try reflexivity; cbn [vt].
  - now rewrite (IH u u' E).
  - now rewrite (IH u u' E).
  - now rewrite (IH u u' E).
  - assert (M : map vt fs = map vt fs').
    { revert fs fs' E. fix IHl 3. intros fs fs' [|u u' l l' E El]; [reflexivity|]. cbn [map].
      rewrite (IH u u' E), (IHl l l' El). reflexivity. }
    now rewrite M.
Qed.
Lemma limits_ignored t t' : same_but_limits t t' -> forall old b, deserialize t old b = deserialize t' old b.
Proof. intros E old b. unfold deserialize. now rewrite (limits_vt t t' E). Qed.
Lemma limits_not_encoded t t' : same_but_limits t t' -> forall v, serialize t v = serialize t' v.
Proof. intros E v. unfold serialize. now rewrite (limits_vt t t' E). Qed.
Lemma container_remains t s old b v : container_pair t s -> wt t old -> bytes_ok b ->
  deserialize t old b = Ok (false, v) -> remains s b old v.
Proof.
  intros Hp. pose proof (container_pair_container t s Hp) as Hc. apply failed_remains; [now apply is_container_wf|now apply container_pair_matches].
Qed.
