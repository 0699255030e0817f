(** What an object holds after a deserialization is bounded by the input. *)
From Coq Require Import ZArith String List Bool Lia Sorting.Sorted.
From Coq Require Import ZifyBool ZifyNat.
From Verif Require Import Base SpecSSZ SpecWire SpecSize SpecUndef SpecLeft SpecObj SpecClasses ModelSSZ LemBase LemBits LemTy LemSer LemCodec LemMatch LemWire LemUndef LemBind
  LemSize LemThmCodec LemLeft LemFit LemThmFit.
Import ListNotations.
Open Scope list_scope.
Open Scope Z_scope.

Definition taken (e : bool * list Z) : Z := (if fst e then 4 else 0) + zlen (snd e).
Lemma sumZ_cons x l : sumZ (x :: l) = x + sumZ l.
Proof. reflexivity. Qed.
Lemma sum_same {A} (f : A -> Z) k l : Forall (fun a => f a = k) l -> sumZ (map f l) = zlen l * k.
Proof. induction 1 as [|a l E _ IH]; [reflexivity|]. cbn [map]. rewrite sumZ_cons, IH, E. unfold zlen. cbn [length]. lia. Qed.
Lemma sumZ_app x y : sumZ (x ++ y) = sumZ x + sumZ y.
Proof. induction x as [|a x IH]; cbn [app]; [cbn; lia|]. rewrite !sumZ_cons. lia. Qed.
Lemma sum_pos l : Forall (fun x => 0 <= x) l -> 0 <= sumZ l.
Proof. induction 1 as [|x l H _ IH]; [cbn; lia|]. rewrite sumZ_cons. lia. Qed.
Lemma sum_of_repeat k n : sumZ (repeat k n) = Z.of_nat n * k.
Proof. induction n as [|n IH]; [reflexivity|]. cbn [repeat]. rewrite sumZ_cons. lia. Qed.
Lemma nth_parts_ok a b i : bytes_ok b -> bytes_ok (nth i (parts a b) []).
Proof.
  intros Hb. pose proof (parts_ok a b Hb) as F. destruct (nth_in_or_default i (parts a b) []) as [I|E]; [|rewrite E; constructor].
  rewrite Forall_forall in F. exact (F _ I).
Qed.
(** Values of a fixed-size type take its size. *)
Lemma shape_fixed s : solid s = true -> is_variable s = false -> forall v, shape s v -> zlen (ssz_serialize s v) = sty_size s.
Proof.
  induction s using sty_ind'; intros S V v Hv; destruct v; cbn [shape] in Hv; try contradiction; cbn [ssz_serialize sty_size solid is_variable] in *.
  - apply zlen_le_bytes.
  - reflexivity.
  - tauto.
  - rewrite zlen_le_bytes, Z2Nat.id by (apply Z.div_pos; lia). reflexivity.
  - discriminate V.
  - rewrite !andb_true_iff in S. destruct S as [[_ S] N]. apply negb_true_iff in N. destruct Hv as [L F].
    rewrite series_len, map_map. rewrite (sum_same _ (sty_size s)); [rewrite L; reflexivity|].
    eapply Forall_impl; [|exact F]. intros v Hv. cbn [fst snd]. rewrite N, (IHs S N v Hv). lia.
  - discriminate V.
  - rewrite V. rewrite andb_true_iff in S. destruct S as [S _]. rewrite series_len. revert l Hv.
    induction H as [|[n s] fs Hs _ IH]; intros [|v l] Hv; try contradiction; [reflexivity|].
    cbn [forallb existsb snd] in *. apply andb_true_iff in S. apply orb_false_iff in V. destruct S as [S1 S2], V as [V1 V2], Hv as [H1 H2].
    cbn [map fst snd]. rewrite !sumZ_cons, (IH S2 V2 l H2), V1, (Hs S1 V1 v H1). lia.
Qed.

(** The variable-size parts do not overlap. *)
Definition extent (b : list Z) (x : Z * (Z * Z)) : Z := if fst x =? 0 then zlen (bytes_at b (fst (snd x)) (snd (snd x))) else 0.
Definition extents (a : list Z) (b : list Z) (p : Z) : list Z := map (extent b) (combine a (part_ranges a b p)).
Lemma u32_at_nonneg b i : bytes_ok b -> 0 <= u32_at b i.
Proof. intros Hb. unfold u32_at. apply le_val_bound. now apply bytes_at_ok. Qed.
Lemma extents_sum b a : bytes_ok b -> forall p, Sorted Z.le (offsets a b p) -> Forall (fun o => o <= zlen b) (offsets a b p) ->
  sumZ (extents a b p) <= zlen b - hd (zlen b) (offsets a b p).
Proof.
  intros Hb. unfold extents. induction a as [|s r IH]; intros p S F; [cbn; lia|]. cbn [offsets part_ranges] in *. destruct (s =? 0) eqn:E.
  - inversion S as [|? ? S' H]; subst. inversion F as [|? ? F1 F2]; subst. specialize (IH (p + 4) S' F2).
    cbn [combine map hd]. rewrite sumZ_cons. unfold extent at 1. cbn [fst snd]. rewrite E. pose proof (u32_at_nonneg b p Hb) as N.
    assert (X : u32_at b p <= hd (zlen b) (offsets r b (p + 4)) <= zlen b).
    { inversion H as [|? ? X Y]; cbn [hd]; [lia|]. rewrite <- Y in F2. inversion F2; subst. lia. }
    rewrite zlen_bytes_at by lia. lia.
  - specialize (IH (p + s) S F). cbn [combine map]. rewrite sumZ_cons. unfold extent at 1. cbn [fst]. rewrite E. lia.
Qed.
Lemma extents_pos b a p : Forall (fun x => 0 <= x) (extents a b p).
Proof. unfold extents. apply Forall_map, Forall_forall. intros x _. unfold extent. destruct (_ =? 0); [apply zlen_nonneg|lia]. Qed.
Lemma extents_length b a p : length (extents a b p) = length a.
Proof. unfold extents. rewrite map_length, combine_length, ranges_length. lia. Qed.
Lemma nth_extents b a i d : (i < length a)%nat -> nth i (extents a b 0) 0 = if nth i a d =? 0 then zlen (nth i (parts a b) []) else 0.
Proof.
  intros I. unfold extents, parts. rewrite (nth_indep _ 0 (extent b (d, (0, 0)))) by (rewrite map_length, combine_length, ranges_length; lia).
  rewrite map_nth, combine_nth by (rewrite ranges_length; reflexivity). unfold extent. cbn [fst snd].
  set (g := fun r : Z * Z => bytes_at b (fst r) (snd r)). rewrite (nth_indep _ [] (g (0, 0))) by (rewrite map_length, ranges_length; exact I).
  rewrite map_nth. reflexivity.
Qed.

(** Sums position by position *)
Lemma sum_nth x : forall y g, length x = length y -> (length g <= length x)%nat ->
  (forall i, (i < length x)%nat -> nth i x 0 <= nth i y 0 + nth i g 0) -> sumZ x <= sumZ y + sumZ g.
Proof.
  induction x as [|a x IH]; intros [|b y] g L G H; try discriminate L; [destruct g; [cbn; lia|cbn in G; lia]|]. injection L as L.
  pose proof (H 0%nat ltac:(cbn; lia)) as H0. cbn [nth] in H0. rewrite !sumZ_cons. destruct g as [|c g].
  - assert (sumZ x <= sumZ y + sumZ []). { apply IH; [exact L|cbn; lia|]. intros i I. specialize (H (S i) ltac:(cbn; lia)). cbn [nth] in *. destruct i; exact H. }
    cbn [nth] in H0. change (sumZ []) with 0 in *. lia.
  - rewrite sumZ_cons. assert (sumZ x <= sumZ y + sumZ g); [|cbn [nth] in H0; lia].
    apply IH; [exact L|cbn in G; lia|]. intros i I. apply (H (S i)). cbn. lia.
Qed.

Definition grows (s : sty) : Prop := forall b o v, bytes_ok b -> shape s o -> shape s v -> leftover s b o v ->
  zlen (ssz_serialize s v) <= zlen (ssz_serialize s o) + zlen b.
(** Elements of a list *)
Lemma elements_len s b l : solid s = true -> bytes_ok b -> elements_read s b l -> sumZ (map (fun v => taken (is_variable s, ssz_serialize s v)) l) <= zlen b.
Proof.
  intros S Hb [->|E]; [apply zlen_nonneg|]. destruct (solid_size s S) as [Sz Sv]. unfold taken. cbn [fst snd]. destruct (is_variable s) eqn:V.
  - destruct E as (A & B & C & D). set (a := repeat 0 (Datatypes.S (length l))) in *.
    pose proof (extents_sum b a Hb 0 B C) as X. assert (O : hd (zlen b) (offsets a b 0) = u32_at b 0) by reflexivity. rewrite O in X.
    set (g := fun v : val => 4 + zlen (ssz_serialize s v)).
    assert (Y : sumZ (map g l) <= sumZ (repeat 4 (length l)) + sumZ (firstn (length l) (extents a b 0))).
    { apply sum_nth; [rewrite map_length, repeat_length; reflexivity|rewrite map_length, firstn_length; lia|].
      intros i I. rewrite map_length in I.
      assert (L : (i < length a)%nat) by (unfold a; rewrite repeat_length; lia).
      rewrite (nth_indep _ 0 (g (VSeq []))) by (rewrite map_length; exact I). rewrite map_nth. unfold g at 1.
      assert (R : nth i (repeat 4 (length l)) 0 = 4).
      { rewrite (nth_indep _ 0 4) by (rewrite repeat_length; exact I). apply nth_repeat. }
      rewrite R. clear R.
      assert (R : nth i (firstn (length l) (extents a b 0)) 0 = nth i (extents a b 0) 0).
      { rewrite <- (firstn_skipn (length l) (extents a b 0)) at 2. rewrite app_nth1; [reflexivity|]. rewrite firstn_length, extents_length. lia. }
      rewrite R, (nth_extents b a i 0 L). unfold a at 1. rewrite nth_repeat. cbn [Z.eqb].
      assert (P : accepts s (nth i (parts a b) []) (nth i l (VSeq []))).
      { assert (G : nth i (firstn (length l) (parts a b)) [] = nth i (parts a b) []).
        { rewrite <- (firstn_skipn (length l) (parts a b)) at 2. rewrite app_nth1; [reflexivity|]. apply Forall2_len in D. lia. }
        rewrite <- G. clear - D I. revert i I. generalize dependent (firstn (length l) (parts a b)). induction l as [|x l IH]; intros q D i I; [cbn in I; lia|].
        inversion D as [|y ? q' ? D1 D2]; subst. destruct i; [exact D1|]. cbn [nth]. cbn [length] in I. apply IH; [exact D2|lia]. }
      pose proof (accepted_len s S _ _ (nth_parts_ok a b i Hb) P) as Q.
      unfold len_ok in Q. rewrite V in Q. lia. }
    rewrite sum_of_repeat in Y.
    assert (Z1 : sumZ (firstn (length l) (extents a b 0)) <= sumZ (extents a b 0)).
    { pose proof (extents_pos b a 0) as Q. clear - Q. rewrite <- (firstn_skipn (length l) (extents a b 0)) at 2. rewrite sumZ_app.
      assert (0 <= sumZ (skipn (length l) (extents a b 0))); [|lia].
      apply sum_pos. apply Forall_forall. intros x X. rewrite Forall_forall in Q. apply Q. rewrite <- (firstn_skipn (length l) (extents a b 0)). apply in_or_app. auto. }
    unfold zlen in *. lia.
  - destruct E as (_ & A & D). rewrite (sum_same _ (sty_size s)); [exact A|].
    assert (G : Forall bytes_ok (parts (repeat (sty_size s) (length l)) b)) by (apply parts_ok; exact Hb).
    clear - S D V G. induction D as [|p v ps l P _ IH]; [constructor|]. inversion G; subst. constructor; [|auto].
    pose proof (accepted_len s S p v ltac:(assumption) P) as Q. unfold len_ok in Q. rewrite V in Q. lia.
Qed.

(** Fields of a container *)
Lemma solid_fields (fs : list field) : solid (SContainer fs) = true -> Forall split_ok fs /\ Forall (fun f => solid (snd f) = true) fs.
Proof.
  cbn [solid]. rewrite andb_true_iff, forallb_forall. intros [S _]. split; apply Forall_forall; intros f I; [|exact (S f I)].
  split; apply (solid_size (snd f) (S f I)).
Qed.
Lemma shape_fields (fs : list field) l : shape (SContainer fs) (VSeq l) -> Forall2 shape (map snd fs) l.
Proof. intros H. apply (shape_subs (SContainer fs) (VSeq l) eq_refl) in H. destruct H as (l' & E & _ & H). injection E as <-. exact H. Qed.
Lemma Forall2_nth {A B} (R : A -> B -> Prop) l m i (a : A) (b : B) : Forall2 R l m -> (i < length l)%nat -> R (nth i l a) (nth i m b).
Proof. intros F. revert i. induction F as [|x y l m H _ IH]; intros i I; [cbn in I; lia|]. destruct i; [exact H|]. cbn [nth]. apply IH. cbn in I. lia. Qed.
Lemma field_lt (fs : list field) i f : nth_error fs i = Some f -> (i < length fs)%nat.
Proof. intros N. apply nth_error_Some. rewrite N. discriminate. Qed.
Lemma field_slot (fs : list field) l i f : nth_error fs i = Some f -> length l = length fs ->
  nth i (map taken (es_of (map snd fs) l)) 0 = taken (is_variable (snd f), ssz_serialize (snd f) (nth i l (VSeq []))).
Proof.
  intros E L. assert (I : (i < length fs)%nat) by (apply nth_error_Some; congruence).
  rewrite (nth_indep _ 0 (taken (false, []))) by (unfold es_of; rewrite !map_length, combine_length, map_length; unfold field in *; lia). rewrite map_nth. f_equal.
  unfold es_of. set (g := fun sv : sty * val => _). rewrite (nth_indep _ (false, []) (g (snd f, VSeq []))) by (rewrite map_length, combine_length, map_length; unfold field in *; lia).
  rewrite map_nth, combine_nth by (rewrite map_length; unfold field in *; lia). rewrite map_nth, (nth_error_nth _ _ _ E). reflexivity.
Qed.
Lemma first_offset b (Hb : bytes_ok b) x r : forall a p, offsets a b p = x :: r -> 0 <= x.
Proof.
  induction a as [|y a IH]; intros p E; [discriminate E|]. cbn [offsets] in E. destruct (y =? 0); [|exact (IH _ E)].
  assert (Q : x = u32_at b p) by congruence. rewrite Q. now apply u32_at_nonneg.
Qed.
Lemma container_sum fs b : bytes_ok b -> forall room, heads_ok room fs b -> sumZ (extents (sizes_of fs) b 0) <= zlen b.
Proof.
  intros Hb room (_ & _ & S & F). pose proof (extents_sum b _ Hb 0 S F) as X.
  assert (0 <= hd (zlen b) (offsets (sizes_of fs) b 0)); [|lia].
  destruct (offsets (sizes_of fs) b 0) as [|x r] eqn:E; [apply zlen_nonneg|]. cbn [hd].
  exact (first_offset b Hb x r _ _ E).
Qed.
(** The fields that have been looked at, [fs'], are the first ones of [fs]. *)
Lemma container_grows (fs fs' more : list field) b room o l : solid (SContainer fs) = true -> fs = fs' ++ more -> bytes_ok b -> heads_ok room fs' b ->
  shape (SContainer fs) (VSeq o) -> shape (SContainer fs) (VSeq l) ->
  (forall i f, nth_error fs i = Some f -> is_variable (snd f) = true ->
     zlen (ssz_serialize (snd f) (nth i l (VSeq []))) <= zlen (ssz_serialize (snd f) (nth i o (VSeq []))) \/
     (i < length fs')%nat /\ zlen (ssz_serialize (snd f) (nth i l (VSeq []))) <= zlen (ssz_serialize (snd f) (nth i o (VSeq []))) + zlen (field_bytes fs' b i)) ->
  zlen (ssz_serialize (SContainer fs) (VSeq l)) <= zlen (ssz_serialize (SContainer fs) (VSeq o)) + zlen b.
Proof.
  intros S E Hb Hh Ho Hl H. destruct (solid_fields fs S) as [SO SF]. apply shape_fields in Ho. apply shape_fields in Hl.
  assert (Lo : length o = length fs) by (apply Forall2_len in Ho; rewrite map_length in Ho; auto).
  assert (Ll : length l = length fs) by (apply Forall2_len in Hl; rewrite map_length in Hl; auto).
  rewrite !(ser_subs (SContainer fs)) by reflexivity. cbn [subs]. rewrite !series_len. change (fun e : bool * list Z => (if fst e then 4 else 0) + zlen (snd e)) with taken.
  pose proof (container_sum fs' b Hb room Hh) as X.
  assert (Len : forall l, length l = length fs -> length (map taken (es_of (map snd fs) l)) = length fs).
  { intros k K. unfold es_of. rewrite !map_length, combine_length, map_length. unfold field in *; lia. }
  enough (sumZ (map taken (es_of (map snd fs) l)) <= sumZ (map taken (es_of (map snd fs) o)) + sumZ (extents (sizes_of fs') b 0)) by lia.
  apply sum_nth; [rewrite !Len by assumption; reflexivity|rewrite Len, extents_length by assumption; unfold sizes_of; rewrite map_length, E, app_length; unfold field in *; lia|].
  intros i I. rewrite Len in I by assumption. destruct (nth_error fs i) as [f|] eqn:N; [|apply nth_error_None in N; lia].
  rewrite !(field_slot fs _ i f N) by assumption. unfold taken. cbn [fst snd].
  assert (P : 0 <= nth i (extents (sizes_of fs') b 0) 0).
  { destruct (nth_in_or_default i (extents (sizes_of fs') b 0) 0) as [J|J]; [|lia]. pose proof (extents_pos b (sizes_of fs') 0) as Q. rewrite Forall_forall in Q. exact (Q _ J). }
  pose proof (nth_error_In _ _ N) as In_f. rewrite Forall_forall in SO, SF. destruct (SO f In_f) as [Sz Sv].
  destruct (is_variable (snd f)) eqn:V.
  - destruct (H i f N V) as [A|[J A]]; [lia|]. rewrite (nth_extents b (sizes_of fs') i 1) by (unfold sizes_of; rewrite map_length; exact J).
    assert (T : nth i (sizes_of fs') 1 = sty_size (snd f)).
    { unfold sizes_of. rewrite (nth_error_nth (map _ fs') i 1 (x := sty_size (snd f))); [reflexivity|]. rewrite nth_error_map.
      rewrite E, nth_error_app1 in N by exact J. rewrite N. reflexivity. }
    rewrite T, <- Sv. unfold field_bytes in A. lia.
  - assert (F : forall k, Forall2 shape (map snd fs) k -> zlen (ssz_serialize (snd f) (nth i k (VSeq []))) = sty_size (snd f)).
    { intros k K. apply shape_fixed; [exact (SF f In_f)|exact V|]. pose proof (Forall2_nth shape _ _ i (snd f) (VSeq []) K ltac:(rewrite map_length; exact I)) as Q.
      rewrite map_nth, (nth_error_nth _ _ _ N) in Q. exact Q. }
    rewrite !F by assumption. lia.
Qed.
Theorem left_bounded s : solid s = true -> grows s.
Proof.
  induction s as [s Hc|s Hc IH] using sty_comp_ind; intros S b o v Hb Ho Hv L.
  { inversion L; subst; try discriminate Hc. pose proof (zlen_nonneg b). lia. }
  destruct (is_variable s) eqn:V.
  2: { rewrite !(shape_fixed s S V) by assumption. pose proof (zlen_nonneg b). lia. }
  inversion L as [? ? ? LT|s' n ? ? l E M|? ? ? ? Q|s' n ? o1 o' o2 l v' c Q|seen rest ? o' l room R M Len F]; subst.
  - pose proof (zlen_nonneg b). lia.
  - pose proof (zlen_nonneg (ssz_serialize (SList s' n) o)) as Q. pose proof (elements_len s' b l S Hb E) as X.
    assert (Y : zlen (ssz_serialize (SList s' n) (VSeq l)) = sumZ (map (fun v => taken (is_variable s', ssz_serialize s' v)) l)).
    { cbn [ssz_serialize]. rewrite series_len, map_map. reflexivity. }
    lia.
  - pose proof (zlen_nonneg b). lia.
  - cbn [solid is_variable] in S, V. rewrite V, andb_false_r in S. discriminate S.
  - destruct (solid_fields _ S) as [SO SF]. specialize (IH []). cbn [subs] in IH. rewrite Forall_map, Forall_forall in IH.
    assert (Sub : forall i f, nth_error (seen ++ rest) i = Some f -> grows (snd f)).
    { intros i f N. pose proof (nth_error_In _ _ N) as J. apply (IH f J). rewrite Forall_forall in SF. exact (SF f J). }
    assert (Sh : forall k i f, shape (SContainer (seen ++ rest)) (VSeq k) -> nth_error (seen ++ rest) i = Some f -> shape (snd f) (nth i k (VSeq []))).
    { intros k i f K N. apply shape_fields in K. pose proof (Forall2_nth shape _ _ i (snd f) (VSeq []) K) as Q. rewrite map_length, map_nth, (nth_error_nth _ _ _ N) in Q.
      apply Q. exact (field_lt _ _ _ N). }
    assert (Acc : forall fs i f w, nth_error (seen ++ rest) i = Some f -> is_variable (snd f) = true -> accepts (snd f) (field_bytes fs b i) w ->
      zlen (ssz_serialize (snd f) w) = zlen (field_bytes fs b i)).
    { intros fs i f w N Vf A. pose proof (nth_error_In _ _ N) as J. rewrite Forall_forall in SF.
      pose proof (accepted_len _ (SF f J) _ _ (nth_parts_ok (sizes_of fs) b i Hb) A) as Q. unfold len_ok in Q. rewrite Vf in Q. exact Q. }
    destruct (Z_le_gt_dec (zlen (ssz_serialize (SContainer (seen ++ rest)) (VSeq l))) (zlen (ssz_serialize (SContainer (seen ++ rest)) (VSeq o')) + zlen b)) as [G|G]; [exact G|exfalso].
    assert (NT : ~ heads_ok room (seen ++ firstn 1 rest) b).
    { intros T. apply (Z.lt_irrefl (zlen b)). enough (zlen (ssz_serialize (SContainer (seen ++ rest)) (VSeq l)) <= zlen (ssz_serialize (SContainer (seen ++ rest)) (VSeq o')) + zlen b) by lia.
      apply (container_grows _ (seen ++ firstn 1 rest) (skipn 1 rest) b room); auto; [rewrite <- app_assoc, firstn_skipn; reflexivity|].
      intros i f N Vf. destruct (F i f N) as [[D A]|[[D A]|(_ & _ & A)]].
      - right. split; [rewrite app_length; destruct D; lia|]. rewrite <- (Acc (seen ++ firstn 1 rest) i f (nth i l (VSeq [])) N Vf); [pose proof (zlen_nonneg (ssz_serialize (snd f) (nth i o' (VSeq [])))); lia|].
        destruct rest as [|g rest]; [cbn [firstn]; rewrite app_nil_r; exact A|]. change (firstn 1 (g :: rest)) with [g].
        assert (SO' : Forall split_ok (seen ++ [g])).
        { apply Forall_app in SO. destruct SO as [S1 S2]. inversion S2; subst. apply Forall_app. split; [exact S1|]. constructor; [assumption|constructor]. }
        rewrite (part_ended b seen g SO' i D). exact A.
      - right. destruct D as [D1 D2]. split.
        + destruct rest as [|g rest]; cbn [firstn]; [rewrite app_nil_r|rewrite app_length; cbn [length]].
          * rewrite app_nil_r in N, SO. exact (field_lt _ _ _ N).
          * destruct (is_variable (snd g)); [|lia]. apply Forall_app in SO. destruct SO as [S1 _]. rewrite (last_variable_sizes _ S1) in D2. apply lastz_lt in D2.
            rewrite sizes_length in D2. lia.
        + apply (Sub i f N); [apply nth_parts_ok; exact Hb|apply Sh; assumption|apply Sh; assumption|exact A].
      - left. rewrite A. lia. }
    enough (zlen (ssz_serialize (SContainer (seen ++ rest)) (VSeq l)) <= zlen (ssz_serialize (SContainer (seen ++ rest)) (VSeq o')) + zlen b) by lia.
    apply (container_grows _ seen rest b room); auto; [exact (proj1 R)|].
    intros i f N Vf. destruct (F i f N) as [[D A]|[[D A]|(_ & _ & A)]].
    + right. split; [destruct D; lia|]. rewrite <- (Acc seen i f _ N Vf A). pose proof (zlen_nonneg (ssz_serialize (snd f) (nth i o' (VSeq [])))). lia.
    + exfalso. apply NT. exact (proj1 D).
    + left. rewrite A. lia.
Qed.

Lemma object_bounded t s old b ok v : wf t = true -> matches t s = true -> wt t old -> bytes_ok b -> deserialize t old b = Ok (ok, v) ->
  zlen (serialize t v) <= (if ok then 0 else zlen (serialize t old)) + zlen b.
Proof.
  intros W M Ho Hb E. pose proof (matches_solid t W s M) as S. pose proof (result_wt t old b ok v W Ho Hb E) as Hv.
  rewrite !(matches_serialize t W s _ M) by assumption. destruct ok.
  - pose proof E as A. apply (acceptance t s old b v W M Ho Hb) in A. pose proof (accepted_len s S b v Hb A) as L. unfold len_ok in L. rewrite L.
    destruct (is_variable s); [lia|]. rewrite (matches_size t W s M). pose proof (fixed_exact_or_longer t old b v W Ho Hb E). lia.
  - apply (left_bounded s S b old v Hb); [now apply (matches_shape t)|now apply (matches_shape t)|].
    apply (leftover_parts t s old b v W M Ho Hb) in E. exact (proj2 E).
Qed.
Lemma container_bounded t s old b ok v : container_pair t s -> wt t old -> bytes_ok b -> deserialize t old b = Ok (ok, v) ->
  zlen (serialize t v) <= (if ok then 0 else zlen (serialize t old)) + zlen b.
Proof. intros P. destruct (pair_solid t s P) as (W & M & _). exact (object_bounded t s old b ok v W M). Qed.
