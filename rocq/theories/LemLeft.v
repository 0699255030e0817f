(** A failed deserialization leaves exactly what SpecLeft says. *)
From Coq Require Import ZArith String List Bool Lia Sorting.Sorted.
From Coq Require Import ZifyBool ZifyNat.
From Verif Require Import SpecClasses Base SpecSSZ SpecWire SpecUndef SpecLeft ModelSSZ SpecObj LemBase LemBits LemTy LemSer LemDes LemCodec
  LemCodecSeq LemCodecAll LemMatch LemWire LemUndef LemThmCodec.
Import ListNotations.
Open Scope list_scope.
Open Scope Z_scope.

(** ** Offsets and ranges when one more field is seen *)
Fixpoint lastz (a : list Z) : option nat :=
  match a with
  | [] => None
  | x :: r => match lastz r with Some i => Some (S i) | None => if x =? 0 then Some 0%nat else None end
  end.
Lemma last_variable_sizes fs : Forall split_ok fs -> last_variable fs = lastz (sizes_of fs).
Proof.
  induction 1 as [|f fs [_ H] _ IH]; [reflexivity|]. cbn [last_variable sizes_of map lastz]. fold (sizes_of fs).
  rewrite IH, H. reflexivity.
Qed.
Lemma lastz_none b a : forall p, lastz a = None <-> offsets a b p = [].
Proof.
  induction a as [|x a IH]; intros p; cbn [lastz offsets]; [tauto|].
  destruct (Z.eqb_spec x 0) as [->|N].
  - split; [|discriminate]. destruct (lastz a); discriminate.
  - rewrite <- (IH (p + x)). destruct (lastz a); split; try discriminate; tauto.
Qed.
Lemma lastz_lt a i : lastz a = Some i -> (i < length a)%nat.
Proof.
  revert i. induction a as [|x a IH]; intros i; cbn [lastz length]; [discriminate|].
  destruct (lastz a) as [j|]; [intros E; injection E as <-; specialize (IH j eq_refl); lia|].
  destruct (x =? 0); [intros E; injection E as <-; lia|discriminate].
Qed.
Lemma lastz_snoc a s : lastz (a ++ [s]) = if s =? 0 then Some (length a) else lastz a.
Proof.
  induction a as [|x a IH]; cbn [app lastz length]; [reflexivity|]. rewrite IH. destruct (s =? 0); reflexivity.
Qed.
Lemma room_app a s : fixed_room (a ++ [s]) = fixed_room a + (if s =? 0 then 4 else s).
Proof.
  unfold fixed_room. induction a as [|x a IH]; cbn [app map sumZ fold_right] in *; [lia|].
  unfold sumZ in *. cbn [fold_right]. lia.
Qed.
Lemma offsets_snoc b a s : forall p, offsets (a ++ [s]) b p = offsets a b p ++ (if s =? 0 then [u32_at b (p + fixed_room a)] else []).
Proof.
  induction a as [|x a IH]; intros p.
  - cbn [app offsets]. replace (p + fixed_room []) with p by (cbn; lia). destruct (s =? 0); reflexivity.
  - cbn [app offsets]. rewrite LemUndef.room_cons. destruct (x =? 0); rewrite IH.
    + replace (p + 4 + fixed_room a) with (p + (4 + fixed_room a)) by lia. reflexivity.
    + replace (p + x + fixed_room a) with (p + (x + fixed_room a)) by lia. reflexivity.
Qed.
Lemma hd_app {A} (d : A) l m : l <> [] -> hd d (l ++ m) = hd d l.
Proof. destruct l; [congruence|reflexivity]. Qed.
Lemma ranges_length b a : forall p, length (part_ranges a b p) = length a.
Proof. induction a as [|x a IH]; intros p; cbn [part_ranges length]; [reflexivity|]. destruct (x =? 0); cbn [length]; rewrite IH; reflexivity. Qed.
Lemma range_ended b a s d : forall p i, (i < length a)%nat -> lastz a <> Some i ->
  nth i (part_ranges (a ++ [s]) b p) d = nth i (part_ranges a b p) d.
Proof.
  induction a as [|x a IH]; intros p i Hi Hl; cbn [length] in Hi; [lia|]. cbn [app part_ranges].
  assert (Hl' : forall j, i = S j -> lastz a <> Some j).
  { intros j -> E. apply Hl. cbn [lastz]. rewrite E. reflexivity. }
  destruct (Z.eqb_spec x 0) as [->|N]; destruct i as [|i]; cbn [nth].
  - rewrite offsets_snoc. rewrite hd_app; [reflexivity|]. intros E. apply lastz_none in E. apply Hl. cbn [lastz]. rewrite E. reflexivity.
  - apply IH; [lia|auto].
  - reflexivity.
  - apply IH; [lia|auto].
Qed.
Lemma last_cons {A} (x : A) l d : l <> [] -> last (x :: l) d = last l d.
Proof. destruct l; [congruence|reflexivity]. Qed.
Lemma range_pending b a d : forall p i, lastz a = Some i ->
  nth i (part_ranges a b p) d = (last (offsets a b p) 0, zlen b).
Proof.
  induction a as [|x a IH]; intros p i; cbn [lastz]; [discriminate|]. cbn [part_ranges offsets].
  destruct (lastz a) as [j|] eqn:E.
  - intros X. injection X as <-.
    destruct (Z.eqb_spec x 0) as [->|N]; cbn [nth]; rewrite (IH _ j eq_refl); [|reflexivity].
    rewrite last_cons; [reflexivity|]. intros Y. apply lastz_none in Y. congruence.
  - destruct (Z.eqb_spec x 0) as [->|N]; [|discriminate]. intros X. injection X as <-. cbn [nth].
    apply (lastz_none b a (p + 4)) in E. rewrite E. reflexivity.
Qed.
Lemma range_pending_snoc b a s d : forall p i, lastz a = Some i ->
  nth i (part_ranges (a ++ [s]) b p) d = (last (offsets a b p) 0, if s =? 0 then u32_at b (p + fixed_room a) else zlen b).
Proof.
  induction a as [|x a IH]; intros p i; cbn [lastz]; [discriminate|]. cbn [app part_ranges offsets]. rewrite LemUndef.room_cons.
  destruct (lastz a) as [j|] eqn:E.
  - intros X. injection X as <-.
    destruct (Z.eqb_spec x 0) as [->|N]; cbn [nth]; rewrite (IH _ j eq_refl).
    + rewrite last_cons; [|intros Y; apply lastz_none in Y; congruence]. now replace (p + 4 + fixed_room a) with (p + (4 + fixed_room a)) by lia.
    + now replace (p + x + fixed_room a) with (p + (x + fixed_room a)) by lia.
  - destruct (Z.eqb_spec x 0) as [->|N]; [|discriminate]. intros X. injection X as <-. cbn [nth].
    apply (lastz_none b a (p + 4)) in E. rewrite offsets_snoc, E. cbn [app last].
    replace (p + 4 + fixed_room a) with (p + (4 + fixed_room a)) by lia. destruct (s =? 0); reflexivity.
Qed.
Lemma range_new b a s d : forall p,
  nth (length a) (part_ranges (a ++ [s]) b p) d =
  if s =? 0 then (u32_at b (p + fixed_room a), zlen b) else (p + fixed_room a, p + fixed_room a + s).
Proof.
  induction a as [|x a IH]; intros p; cbn [app length nth part_ranges].
  - replace (p + fixed_room []) with p by (cbn; lia). destruct (s =? 0); reflexivity.
  - rewrite LemUndef.room_cons. destruct (x =? 0); cbn [nth]; rewrite IH.
    + now replace (p + 4 + fixed_room a) with (p + (4 + fixed_room a)) by lia.
    + now replace (p + x + fixed_room a) with (p + (x + fixed_room a)) by lia.
Qed.
Lemma part_range fs b i d : (i < length fs)%nat ->
  field_bytes fs b i = bytes_at b (fst (nth i (part_ranges (sizes_of fs) b 0) d)) (snd (nth i (part_ranges (sizes_of fs) b 0) d)).
Proof.
  intros Hi. unfold field_bytes, parts. set (g := fun r : Z * Z => bytes_at b (fst r) (snd r)).
  rewrite (nth_indep _ [] (g d)) by (rewrite map_length, ranges_length; unfold sizes_of; rewrite map_length; exact Hi).
  rewrite map_nth. reflexivity.
Qed.
Lemma sorted_snoc l x : Sorted Z.le (l ++ [x]) <-> Sorted Z.le l /\ (l = [] \/ last l 0 <= x).
Proof.
  induction l as [|y l IH]; cbn [app].
  - split; [intros _; split; [constructor|now left]|intros _; repeat constructor].
  - destruct l as [|z l].
    + cbn [app last]. rewrite sorted_hd_tl. split.
      * intros [H _]. split; [repeat constructor|now right].
      * intros [_ [E|H]]; [discriminate|]. split; [exact H|repeat constructor].
    + cbn [app] in *. rewrite !sorted_hd_tl, IH. change (last (y :: z :: l) 0) with (last (z :: l) 0).
      split; [intros (A & B & C)|intros ((A & B) & C)]; (split; [split|]) || split; auto.
      all: destruct C as [C|C]; [discriminate C|auto].
Qed.

(** The field after [seen] *)
Lemma sizes_snoc seen f : sizes_of (seen ++ [f]) = sizes_of seen ++ [sty_size (snd f)].
Proof. unfold sizes_of. now rewrite map_app. Qed.
Lemma sizes_length fs : length (sizes_of fs) = length fs.
Proof. apply map_length. Qed.
Section Snoc.
Variables (room : Z) (b : list Z) (seen : list field) (f : field).
Hypothesis Hok : Forall split_ok (seen ++ [f]).
Let it := fixed_room (sizes_of seen).
Lemma snoc_split : Forall split_ok seen /\ split_ok f.
Proof. apply Forall_app in Hok as [H1 H2]. inversion H2; auto. Qed.
Lemma last_snoc : last_variable (seen ++ [f]) = if is_variable (snd f) then Some (length seen) else last_variable seen.
Proof.
  destruct snoc_split as [H1 [H2 H3]]. rewrite !last_variable_sizes by auto. rewrite sizes_snoc, lastz_snoc, H3, sizes_length. reflexivity.
Qed.
Lemma heads_snoc : heads_ok room (seen ++ [f]) b <->
  heads_ok room seen b /\
  if is_variable (snd f) then it + 4 <= zlen b /\ u32_at b it <= zlen b /\
    match last_variable seen with None => u32_at b it = room | Some _ => last (offsets (sizes_of seen) b 0) 0 <= u32_at b it end
  else it + sty_size (snd f) <= zlen b.
Proof.
  destruct snoc_split as [H1 [H2 H3]]. unfold heads_ok. rewrite sizes_snoc, room_app, offsets_snoc, H3. fold it.
  rewrite last_variable_sizes by auto.
  assert (Hit : 0 <= it) by now apply room_nonneg.
  destruct (Z.eqb_spec (sty_size (snd f)) 0) as [E|E].
  - rewrite sorted_snoc, Forall_app. pose proof (lastz_none b (sizes_of seen) 0) as LN.
    replace (0 + it) with it by lia.
    destruct (lastz (sizes_of seen)) as [k|].
    + assert (NE : offsets (sizes_of seen) b 0 <> []) by (intros X; apply LN in X; discriminate X).
      rewrite hd_app by exact NE. split.
      * intros (A & B & (C & [C'|C']) & D & D'); [contradiction|]. inversion D'; subst. repeat split; auto; lia.
      * intros ((A & B & C & D) & A' & B' & C'). repeat split; auto.
    + rewrite (proj1 LN eq_refl). cbn [app hd]. split.
      * intros (A & B & _ & D & D'). inversion D'; subst. repeat split; auto; lia.
      * intros (_ & A' & B' & C'). repeat split; auto.
  - rewrite app_nil_r. split.
    + intros (A & B). split; [|lia]. split; [lia|exact B].
    + intros ((A & B) & C). auto.
Qed.
Lemma part_ended i : ended seen i -> field_bytes (seen ++ [f]) b i = field_bytes seen b i.
Proof.
  destruct snoc_split as [H1 _]. intros [Hi Hl]. rewrite last_variable_sizes in Hl by auto.
  rewrite !(part_range _ b i (0, 0)) by (rewrite ?app_length; lia). rewrite sizes_snoc.
  rewrite range_ended; [reflexivity|rewrite sizes_length; exact Hi|exact Hl].
Qed.
Lemma part_pending i : last_variable seen = Some i ->
  field_bytes (seen ++ [f]) b i = bytes_at b (last (offsets (sizes_of seen) b 0) 0) (if is_variable (snd f) then u32_at b it else zlen b).
Proof.
  destruct snoc_split as [H1 [H2 H3]]. intros Hl. rewrite last_variable_sizes in Hl by auto.
  pose proof (lastz_lt _ _ Hl) as Hi. rewrite sizes_length in Hi.
  rewrite (part_range _ b i (0, 0)) by (rewrite app_length; lia). rewrite sizes_snoc.
  rewrite range_pending_snoc by exact Hl. cbn [fst snd]. rewrite H3. replace (0 + fixed_room (sizes_of seen)) with it by (unfold it; lia). reflexivity.
Qed.
Lemma part_new : field_bytes (seen ++ [f]) b (length seen) =
  if is_variable (snd f) then bytes_at b (u32_at b it) (zlen b) else bytes_at b it (it + sty_size (snd f)).
Proof.
  destruct snoc_split as [H1 [H2 H3]]. rewrite (part_range _ b _ (0, 0)) by (rewrite app_length; cbn [length]; lia).
  rewrite sizes_snoc, <- (sizes_length seen), range_new, H3. replace (0 + fixed_room (sizes_of seen)) with it by (unfold it; lia).
  destruct (_ =? 0); reflexivity.
Qed.
Lemma ended_snoc i : ended (seen ++ [f]) i <->
  ended seen i \/ if is_variable (snd f) then last_variable seen = Some i else i = length seen.
Proof.
  unfold ended. rewrite last_snoc, app_length. cbn [length].
  destruct (is_variable (snd f)).
  - split.
    + intros [A B]. assert (i <> length seen) by congruence.
      destruct (last_variable seen) as [k|]; [|left; split; [lia|discriminate]].
      destruct (Nat.eq_dec k i) as [->|N]; [now right|left; split; [lia|congruence]].
    + intros [[A B]|A]; [split; [lia|]; intros X; injection X; lia|].
      destruct snoc_split as [H1 _]. rewrite last_variable_sizes in A by auto. pose proof (lastz_lt _ _ A) as L. rewrite sizes_length in L.
      split; [lia|]. intros X. injection X. lia.
  - split.
    + intros [A B]. destruct (Nat.eq_dec i (length seen)); [now right|left; split; [lia|exact B]].
    + intros [[A B]| ->]; [split; [lia|exact B]|]. split; [lia|].
      destruct snoc_split as [H1 _]. rewrite last_variable_sizes by auto. intros X. apply lastz_lt in X. rewrite sizes_length in X. lia.
Qed.
(** Seeing one more field. *)
Lemma read_snoc : read_so_far room (seen ++ [f]) b <->
  read_so_far room seen b /\ heads_ok room (seen ++ [f]) b /\
  if is_variable (snd f)
  then forall i g, last_variable seen = Some i -> nth_error seen i = Some g -> accepted g (field_bytes (seen ++ [f]) b i)
  else accepted f (field_bytes (seen ++ [f]) b (length seen)).
Proof.
  unfold read_so_far. split.
  - intros [H A]. split; [split|split]; auto.
    + now apply heads_snoc in H.
    + intros i g Hn He. rewrite <- part_ended by exact He. apply A; [|apply ended_snoc; now left].
      rewrite nth_error_app1; [exact Hn|]. apply He.
    + destruct (is_variable (snd f)) eqn:V.
      * intros i g Hl Hn. apply A; [rewrite nth_error_app1; [exact Hn|]; apply nth_error_Some; congruence|].
        apply ended_snoc. rewrite V. now right.
      * apply A; [rewrite nth_error_app2, Nat.sub_diag by lia; reflexivity|]. apply ended_snoc. rewrite V. now right.
  - intros ((H & A) & H' & B). split; [exact H'|]. intros i g Hn He. apply ended_snoc in He as [He|He].
    + rewrite part_ended by exact He. apply A; [|exact He]. rewrite nth_error_app1 in Hn; [exact Hn|apply He].
    + destruct (is_variable (snd f)) eqn:V.
      * apply (B i g He). destruct snoc_split as [H1 _]. rewrite last_variable_sizes in He by auto. apply lastz_lt in He. rewrite sizes_length in He.
        rewrite nth_error_app1 in Hn; [exact Hn|exact He].
      * subst i. rewrite nth_error_app2, Nat.sub_diag in Hn by lia. injection Hn as <-. exact B.
Qed.
End Snoc.

(** ** Lists: the longest beginning that can be read *)
Lemma longest (P : list val -> Prop) (st : nat -> val -> Prop) : P [] ->
  (forall l v, P (l ++ [v]) <-> P l /\ st (length l) v) -> (forall n v w, st n v -> st n w -> v = w) ->
  forall l, P l -> (forall v, ~ P (l ++ [v])) -> forall l', P l' -> (length l' <= length l)%nat.
Proof.
  intros P0 Ps Hf.
  assert (U : forall l l', P l -> P l' -> length l = length l' -> l = l').
  { induction l as [|v l IH] using rev_ind; intros l' H H' E.
    - destruct l'; [reflexivity|discriminate].
    - destruct l' as [|v' l'] using rev_ind; [rewrite app_length in E; cbn in E; lia|]. clear IHl'.
      rewrite !app_length in E. cbn in E. apply Ps in H as [H S]. apply Ps in H' as [H' S'].
      assert (L : length l = length l') by lia. rewrite L in S. f_equal; [now apply IH|]. f_equal. eapply Hf; eauto. }
  assert (C : forall m l, P (l ++ m) -> P l).
  { induction m as [|v m IH] using rev_ind; intros l H; [now rewrite app_nil_r in H|]. rewrite app_assoc in H. apply Ps in H as [H _]. auto. }
  intros l H N l' H'. destruct (Nat.le_gt_cases (length l') (length l)) as [L|L]; [exact L|exfalso].
  assert (E : l = firstn (length l) l').
  { apply U; auto; [apply (C (skipn (length l) l')); rewrite firstn_skipn; exact H'|]. rewrite firstn_length. lia. }
  destruct (skipn (length l) l') as [|v r] eqn:Es.
  - apply (f_equal (@length val)) in Es. rewrite skipn_length in Es. cbn in Es. lia.
  - apply (N v). apply (C r). rewrite <- app_assoc. cbn [app]. rewrite <- Es. rewrite E at 1. now rewrite firstn_skipn.
Qed.

Lemma parts_repeat_snoc sz n b : sz <> 0 -> 
  parts (repeat sz (S n)) b = parts (repeat sz n) b ++ [bytes_at b (Z.of_nat n * sz) ((Z.of_nat n + 1) * sz)].
Proof.
  intros Hs. unfold parts. change [bytes_at b (Z.of_nat n * sz) ((Z.of_nat n + 1) * sz)] with
    (map (fun r : Z * Z => bytes_at b (fst r) (snd r)) [(Z.of_nat n * sz, (Z.of_nat n + 1) * sz)]).
  rewrite <- map_app. f_equal.
  assert (G : forall p, part_ranges (repeat sz (S n)) b p = part_ranges (repeat sz n) b p ++ [(p + Z.of_nat n * sz, p + (Z.of_nat n + 1) * sz)]).
  { induction n as [|n IH]; intros p.
    - cbn [repeat part_ranges app]. replace (sz =? 0) with false by lia. f_equal. f_equal; lia.
    - change (repeat sz (S (S n))) with (sz :: repeat sz (S n)). change (repeat sz (S n)) with (sz :: repeat sz n) at 2.
      cbn [part_ranges app]. replace (sz =? 0) with false by lia. rewrite IH. cbn [app]. do 4 f_equal; lia. }
  rewrite G. do 3 f_equal.
Qed.
Lemma Forall2_snoc {A B} (R : A -> B -> Prop) l x m y : Forall2 R (l ++ [x]) (m ++ [y]) <-> Forall2 R l m /\ R x y.
Proof.
  split.
  - intros H. apply Forall2_app_inv_l in H as (m1 & m2 & H1 & H2 & E). inversion H2 as [|? y' ? m' Hy Hm]; subst. inversion Hm; subst.
    apply app_inj_tail in E as [-> ->]. auto.
  - intros [H1 H2]. apply Forall2_app; auto.
Qed.
Lemma zlen_snoc {A} (l : list A) v : zlen (l ++ [v]) = zlen l + 1.
Proof. unfold zlen. rewrite app_length. cbn [length]. lia. Qed.

Section Elements.
Variables (t : ty) (s : sty) (b : list Z).
Hypothesis Hwf : wf t = true.
Hypothesis Hm : matches t s = true.
Hypothesis Hb : bytes_ok b.
Let sz := sty_size s.

Lemma accepts_unique c v w : bytes_ok c -> accepts s c v -> accepts s c w -> v = w.
Proof.
  intros Hc Hv Hw. pose proof (wt_default t Hwf) as Hd.
  apply (acceptance t s (vt_default (vt t)) c v Hwf Hm Hd Hc) in Hv. apply (acceptance t s (vt_default (vt t)) c w Hwf Hm Hd Hc) in Hw. congruence.
Qed.
Lemma element_result i j r v : 0 <= i <= j -> j <= zlen b -> 
  vt_des (vt t) (vt_default (vt t)) (bytes_at b i j) = Ok (r, v) ->
  if r then accepts s (bytes_at b i j) v else ~ exists w, accepts s (bytes_at b i j) w.
Proof.
  intros Hij Hj E. pose proof (wt_default t Hwf) as Hd.
  assert (Hc : bytes_ok (bytes_at b i j)) by now apply bytes_at_ok.
  pose proof (fun w => acceptance t s (vt_default (vt t)) (bytes_at b i j) w Hwf Hm Hd Hc) as A. unfold deserialize in A. destruct r.
  - apply A. exact E.
  - intros (w & X). apply A in X. congruence.
Qed.

(** Fixed-size elements *)
Lemma fixed_snoc l v : is_variable s = false -> 0 < sz ->
  (elements_read s b (l ++ [v]) <-> elements_read s b l /\
   (zlen b mod sz = 0 /\ (zlen l + 1) * sz <= zlen b /\ accepts s (bytes_at b (zlen l * sz) ((zlen l + 1) * sz)) v)).
Proof.
  intros Hv Hs. unfold elements_read. rewrite Hv. fold sz.
  rewrite app_length, zlen_snoc. cbn [length]. rewrite Nat.add_1_r, parts_repeat_snoc, Forall2_snoc by lia. fold (zlen l).
  pose proof (zlen_nonneg l) as L. split.
  - intros [E|(A & B & C & D)]; [destruct l; discriminate E|]. split; [right; split; [exact A|split; [nia|exact C]]|auto].
  - intros ([-> |(A & B & C)] & A' & B' & D); right; (split; [exact A'|split; [exact B'|split; [|exact D]]]); [constructor|exact C].
Qed.
Lemma listf_max n o l : is_variable s = false -> 0 < sz -> elements_read s b l -> (forall v, ~ elements_read s b (l ++ [v])) ->
  leftover (SList s n) b o (VSeq l).
Proof.
  intros Hv Hs H N. constructor; [exact H|].
  apply (longest (elements_read s b) (fun k v => zlen b mod sz = 0 /\ (Z.of_nat k + 1) * sz <= zlen b /\
    accepts s (bytes_at b (Z.of_nat k * sz) ((Z.of_nat k + 1) * sz)) v)); auto.
  - now left.
  - intros l' v. apply fixed_snoc; auto.
  - intros k v w (_ & _ & A) (_ & _ & B). exact (accepts_unique _ v w (bytes_at_ok _ _ _ Hb) A B).
Qed.
Lemma listf_loop : is_variable s = false -> 0 < sz -> vt_size (vt t) = sz -> zlen b mod sz = 0 -> forall fuel arr arr',
  elements_read s b arr ->
  listf_des_loop fuel (vt t) b (zlen arr * sz) arr = Ok (false, arr') ->
  elements_read s b arr' /\ (forall v, ~ elements_read s b (arr' ++ [v])).
Proof.
  intros Hv Hs Esz Hmod. induction fuel as [|fuel IH]; intros arr arr' H E; cbn [listf_des_loop] in E;
    (destruct (Z.eqb_spec (zlen arr * sz) (zlen b)) as [X|X]; [discriminate|]); [discriminate|].
  rewrite Esz in E. pose proof (zlen_nonneg arr) as L.
  assert (Le : (zlen arr + 1) * sz <= zlen b).
  { assert (zlen arr * sz <= zlen b). { destruct H as [-> |H]; [pose proof (zlen_nonneg b); change (zlen (@nil val)) with 0; lia|]. rewrite Hv in H. apply H. }
    apply Z.mod_divide in Hmod as (q & Hq); [|lia]. rewrite Hq in *. assert (zlen arr < q) by (apply (Z.mul_lt_mono_pos_r sz); lia). apply Z.mul_le_mono_nonneg_r; lia. }
  replace (zlen arr * sz + sz) with ((zlen arr + 1) * sz) in E by ring.
  rewrite slice_bytes_at in E by nia. cbn [bind] in E.
  destruct (vt_des _ _ _) as [[r v]| |] eqn:Ed; cbn [bind] in E; try discriminate.
  apply element_result in Ed; [|nia|lia]. destruct r.
  - apply (IH (arr ++ [v])).
    + apply fixed_snoc; auto.
    + rewrite zlen_snoc. exact E.
  - injection E as <-. split; [exact H|]. intros w K. apply fixed_snoc in K as (_ & _ & _ & K); auto. eauto.
Qed.

(** Variable-size elements *)
Lemma offsets_repeat n : forall p, offsets (repeat 0 (S n)) b p = offsets (repeat 0 n) b p ++ [u32_at b (p + 4 * Z.of_nat n)].
Proof.
  intros p. replace (repeat 0 (S n)) with (repeat 0 n ++ [0]) by (rewrite <- repeat_cons; reflexivity).
  rewrite offsets_snoc, fixed_room_repeat0. reflexivity.
Qed.
Lemma lastz_repeat n : lastz (repeat 0 (S n)) = Some n.
Proof.
  replace (repeat 0 (S n)) with (repeat 0 n ++ [0]) by (rewrite <- repeat_cons; reflexivity). rewrite lastz_snoc, repeat_length. reflexivity.
Qed.
Lemma parts_repeat0_snoc n : firstn (S n) (parts (repeat 0 (S (S n))) b) =
  firstn n (parts (repeat 0 (S n)) b) ++ [bytes_at b (u32_at b (4 * Z.of_nat n)) (u32_at b (4 * Z.of_nat n + 4))].
Proof.
  set (g := fun r : Z * Z => bytes_at b (fst r) (snd r)).
  assert (EL : forall k, length (parts (repeat 0 k) b) = k) by (intros k; unfold parts; rewrite map_length, ranges_length, repeat_length; reflexivity).
  apply (nth_ext _ _ [] []).
  - rewrite app_length, !firstn_length, !EL. cbn [length]. lia.
  - intros i Hi. rewrite firstn_length, EL in Hi.
    assert (Hi' : (i < S n)%nat) by lia.
    assert (F : forall (m : nat) (l : list (list Z)), (i < m)%nat -> nth i (firstn m l) [] = nth i l []).
    { clear. intros m l Hm. revert i l Hm. induction m as [|m IH]; intros i l Hm; [lia|]. destruct l as [|x l]; [destruct i; reflexivity|].
      destruct i; [reflexivity|]. cbn [firstn nth]. apply IH. lia. }
    rewrite F by lia. unfold parts at 1. rewrite (nth_indep _ [] (g (0, 0))) by (rewrite map_length, ranges_length, repeat_length; lia).
    fold g. rewrite map_nth.
    replace (repeat 0 (S (S n))) with (repeat 0 (S n) ++ [0]) by (rewrite <- repeat_cons; reflexivity).
    destruct (Nat.eq_dec i n) as [->|N].
    + rewrite app_nth2; rewrite firstn_length, EL; [|lia]. replace (n - Nat.min n (S n))%nat with 0%nat by lia. cbn [nth].
      rewrite range_pending_snoc by apply lastz_repeat. cbn [Z.eqb]. unfold g. cbn [fst snd].
      rewrite offsets_repeat, last_last, fixed_room_repeat0. f_equal; f_equal; lia.
    + rewrite app_nth1 by (rewrite firstn_length, EL; lia). rewrite F by lia.
      unfold parts. fold g. rewrite (nth_indep _ [] (g (0, 0))) by (rewrite map_length, ranges_length, repeat_length; lia). rewrite map_nth.
      rewrite range_ended; [reflexivity|rewrite repeat_length; lia|rewrite lastz_repeat; intros X; injection X; lia].
Qed.
Lemma variable_snoc l v : is_variable s = true ->
  (elements_read s b (l ++ [v]) <-> elements_read s b l /\
   (4 * (zlen l + 2) <= u32_at b 0 <= zlen b /\ u32_at b (4 * zlen l) <= u32_at b (4 * zlen l + 4) <= zlen b /\
    accepts s (bytes_at b (u32_at b (4 * zlen l)) (u32_at b (4 * zlen l + 4))) v)).
Proof.
  intros Hv. unfold elements_read. rewrite Hv. rewrite app_length, zlen_snoc. cbn [length]. rewrite Nat.add_1_r.
  rewrite parts_repeat0_snoc, Forall2_snoc. fold (zlen l).
  rewrite (offsets_repeat (S (length l)) 0), sorted_snoc, Forall_app. 
  rewrite (offsets_repeat (length l) 0). fold (zlen l). rewrite last_last.
  replace (0 + 4 * Z.of_nat (S (length l))) with (4 * zlen l + 4) by (unfold zlen; lia).
  replace (0 + 4 * zlen l) with (4 * zlen l) by lia.
  pose proof (zlen_nonneg l) as L. split.
  - intros [E|(A & (B & [B'|B']) & (C & C') & D & D')]; [destruct l; discriminate E|destruct (offsets _ _ _); discriminate B'|].
    inversion C'; subst. split; [right; repeat split; auto; lia|]. repeat split; auto; lia.
  - intros ([-> |(A & B & C & D)] & (A' & A'') & (B' & B'') & C').
    + right. cbn [length repeat offsets app] in *. change (zlen (@nil val)) with 0 in *.
      split; [lia|]. split; [split; [repeat constructor|right; exact B']|]. split; [split; repeat constructor; lia|]. split; [constructor|exact C'].
    + right. split; [lia|]. split; [split; [exact B|right; exact B']|]. split; [split; [exact C|repeat constructor; exact B'']|]. auto.
Qed.
Lemma listv_max n o l : is_variable s = true -> elements_read s b l -> (forall v, ~ elements_read s b (l ++ [v])) ->
  leftover (SList s n) b o (VSeq l).
Proof.
  intros Hv H N. constructor; [exact H|].
  apply (longest (elements_read s b) (fun k v => 4 * (Z.of_nat k + 2) <= u32_at b 0 <= zlen b /\
    u32_at b (4 * Z.of_nat k) <= u32_at b (4 * Z.of_nat k + 4) <= zlen b /\
    accepts s (bytes_at b (u32_at b (4 * Z.of_nat k)) (u32_at b (4 * Z.of_nat k + 4))) v)); auto.
  - now left.
  - intros l' v. apply variable_snoc; auto.
  - intros k v w (_ & _ & A) (_ & _ & B). exact (accepts_unique _ v w (bytes_at_ok _ _ _ Hb) A B).
Qed.
Lemma listv_loop F : is_variable s = true -> F = u32_at b 0 -> F <= zlen b -> forall fuel arr arr',
  elements_read s b arr -> u32_at b (4 * zlen arr) <= zlen b -> 4 * (zlen arr + 1) <= F ->
  listv_des_loop fuel (vt t) b F (4 * zlen arr + 4) (u32_at b (4 * zlen arr)) arr = Ok (false, arr') ->
  elements_read s b arr' /\ (forall v, ~ elements_read s b (arr' ++ [v])).
Proof.
  intros Hv HF HFb.
  assert (N : forall arr, elements_read s b arr -> (forall v, ~ (4 * (zlen arr + 2) <= u32_at b 0 <= zlen b /\ u32_at b (4 * zlen arr) <= u32_at b (4 * zlen arr + 4) <= zlen b /\
    accepts s (bytes_at b (u32_at b (4 * zlen arr)) (u32_at b (4 * zlen arr + 4))) v)) ->
    elements_read s b arr /\ (forall v, ~ elements_read s b (arr ++ [v]))).
  { intros arr H K. split; [exact H|]. intros v X. apply variable_snoc in X as [_ X]; auto. exact (K v X). }
  assert (Last : forall arr arr', elements_read s b arr -> 4 * zlen arr + 4 = F -> u32_at b (4 * zlen arr) <= zlen b ->
    (let* c := slice b (u32_at b (4 * zlen arr)) (zlen b) in let* (ok, v) := vt_des (vt t) (vt_default (vt t)) c in
     if ok then Ok (true, arr ++ [v]) else Ok (false, arr)) = Ok (false, arr') ->
    elements_read s b arr' /\ (forall v, ~ elements_read s b (arr' ++ [v]))).
  { intros arr arr' H E Hle X. destruct (slice b _ _) as [c| |]; cbn [bind] in X; try discriminate.
    destruct (vt_des _ _ c) as [[[] v]| |]; cbn [bind] in X; try discriminate. injection X as <-.
    apply N; [exact H|]. intros w (A & _). lia. }
  induction fuel as [|fuel IH]; intros arr arr' H Hle Hit E; cbn [listv_des_loop] in E;
    (destruct (Z.eqb_spec (4 * zlen arr + 4) F) as [X|X]; [now apply Last in E|]); [discriminate|].
  unfold BYTES_PER_LENGTH_OFFSET in E. pose proof (zlen_nonneg arr) as L.
  pose proof (u32_at_nonneg b (4 * zlen arr) Hb) as N1. pose proof (u32_at_nonneg b (4 * zlen arr + 4) Hb) as N2.
  destruct (Z.gtb_spec (4 * zlen arr + 4 + 4) F) as [H4|H4]. { injection E as <-. apply N; [exact H|]. intros v (A & _). lia. }
  rewrite (slice_bytes_at b (4 * zlen arr + 4)) in E by lia. cbn [bind] in E. fold (u32_at b (4 * zlen arr + 4)) in E.
  destruct (Z.ltb_spec (u32_at b (4 * zlen arr + 4)) (u32_at b (4 * zlen arr))) as [H5|H5]. { injection E as <-. apply N; [exact H|]. intros v (_ & A & _). lia. }
  destruct (Z.ltb_spec (zlen b) (u32_at b (4 * zlen arr + 4))) as [H6|H6]. { injection E as <-. apply N; [exact H|]. intros v (_ & A & _). lia. }
  rewrite slice_bytes_at in E by lia. cbn [bind] in E.
  destruct (vt_des _ _ _) as [[r v]| |] eqn:Ed; cbn [bind] in E; try discriminate.
  apply element_result in Ed; [|lia|lia]. destruct r.
  - apply (IH (arr ++ [v])); rewrite ?zlen_snoc.
    + apply variable_snoc; auto. split; [exact H|]. split; [lia|]. split; [lia|exact Ed].
    + now replace (4 * (zlen arr + 1)) with (4 * zlen arr + 4) by lia.
    + lia.
    + now replace (4 * (zlen arr + 1)) with (4 * zlen arr + 4) by lia.
  - injection E as <-. apply N; [exact H|]. intros w (_ & _ & A). eauto.
Qed.

(** Vectors *)
Definition cell (k : Z) : list Z := bytes_at b (k * sz) ((k + 1) * sz).
Lemma parts_cells l : 0 < sz -> (Forall2 (accepts s) (parts (repeat sz (length l)) b) l <->
  forall j, (j < length l)%nat -> accepts s (cell (Z.of_nat j)) (nth j l (VSeq []))).
Proof.
  intros Hs. induction l as [|v l IH] using rev_ind.
  - split; [intros _ j Hj; cbn in Hj; lia|constructor].
  - rewrite app_length. cbn [length]. rewrite Nat.add_1_r, parts_repeat_snoc, Forall2_snoc, IH by lia. split.
    + intros [A B] j Hj. destruct (Nat.eq_dec j (length l)) as [->|N].
      * rewrite app_nth2, Nat.sub_diag by lia. exact B.
      * rewrite app_nth1 by lia. apply A. lia.
    + intros A. split.
      * intros j Hj. specialize (A j ltac:(lia)). rewrite app_nth1 in A by lia. exact A.
      * specialize (A (length l) ltac:(lia)). rewrite app_nth2, Nat.sub_diag in A by lia. exact A.
Qed.
Lemma vector_loop : 0 < sz -> vt_size (vt t) = sz -> forall arr i ok arr', 0 <= i -> (i + zlen arr) * sz <= zlen b -> Forall (wt t) arr ->
  vector_des_loop (vt t) b i arr = Ok (ok, arr') ->
  if ok then True
  else exists o1 o o2 l v, arr = o1 ++ o :: o2 /\ arr' = l ++ v :: o2 /\ length l = length o1 /\
         (forall j, (j < length l)%nat -> accepts s (cell (i + Z.of_nat j)) (nth j l (VSeq []))) /\ wt t o /\
         vt_des (vt t) o (cell (i + zlen l)) = Ok (false, v).
Proof.
  intros Hs Esz. induction arr as [|o arr IH]; intros i ok arr' Hi Hlen Ha E; cbn [vector_des_loop] in E.
  { injection E as <- <-. exact I. }
  rewrite Esz in E. assert (Zl : zlen (o :: arr) = zlen arr + 1) by (unfold zlen; cbn [length]; lia).
  pose proof (zlen_nonneg arr) as L. rewrite Zl in Hlen. rewrite slice_bytes_at in E by nia. cbn [bind] in E. fold (cell i) in E.
  destruct (vt_des _ _ _) as [[r v]| |] eqn:Ed; cbn [bind] in E; try discriminate.
  assert (Hc : bytes_ok (cell i)) by now apply bytes_at_ok. destruct r.
  - destruct (vector_des_loop (vt t) b (i + 1) arr) as [[ok2 r]| |] eqn:Er; cbn [bind] in E; try discriminate.
    injection E as <- <-. apply IH in Er; [|lia|nia|exact (Forall_inv_tail Ha)]. destruct ok2; [exact I|].
    destruct Er as (o1 & o' & o2 & l & v' & -> & -> & El & A & W & D).
    exists (o :: o1), o', o2, (v :: l), v'. repeat split; auto; [cbn [length]; lia| |].
    + intros [|j] Hj; cbn [nth].
      * replace (i + Z.of_nat 0) with i by lia. apply (acceptance t s o (cell i) v Hwf Hm (Forall_inv Ha) Hc). exact Ed.
      * replace (i + Z.of_nat (S j)) with (i + 1 + Z.of_nat j) by lia. apply A. cbn [length] in Hj. lia.
    + replace (i + zlen (v :: l)) with (i + 1 + zlen l) by (unfold zlen; cbn [length]; lia). exact D.
  - injection E as <- <-. exists [], o, arr, [], v. repeat split; auto.
    + intros j Hj. cbn in Hj. lia.
    + exact (Forall_inv Ha).
    + change (zlen (@nil val)) with 0. replace (i + 0) with i by lia. exact Ed.
Qed.
End Elements.

(** ** Containers *)
Definition sound (t : ty) (s : sty) : Prop := forall old b v, wt t old -> bytes_ok b -> deserialize t old b = Ok (false, v) -> leftover s b old v.
Lemma tried_not_ended room seen rest b i : Forall split_ok (seen ++ rest) -> tried room seen rest b i -> ~ ended seen i.
Proof.
  intros Hok [_ T] [Hi E]. destruct rest as [|f rest]; [congruence|]. destruct (is_variable (snd f)); [congruence|lia].
Qed.
Lemma holds_nth ts o k t : holds (map wt ts) o -> nth_error ts k = Some t -> wt t (nth k o (VSeq [])).
Proof.
  intros Ho Hk. revert k Hk. remember (map wt ts) as Ws. revert ts HeqWs. induction Ho as [|W y Ws ys Hy Hys IH]; intros [|t0 ts] E [|k] Hk; try discriminate; cbn in *; injection E as -> ->.
  - now injection Hk as ->.
  - eapply IH; eauto.
Qed.
Lemma holds_length ts o : holds (map wt ts) o -> length o = length ts.
Proof. intros H. apply Forall2_len in H. rewrite map_length in H. lia. Qed.
Lemma holds_upd ts o k t v : holds (map wt ts) o -> nth_error ts k = Some t -> wt t v -> holds (map wt ts) (upd o k v).
Proof.
  intros Ho Hk Hv. revert k Hk. remember (map wt ts) as Ws. revert ts HeqWs. induction Ho as [|W y Ws ys Hy Hys IH]; intros [|t0 ts] E [|k] Hk; try discriminate; cbn in *; injection E as -> ->.
  - injection Hk as ->. constructor; auto.
  - constructor; auto. eapply IH; eauto.
Qed.

Section Container.
Variables (ts : list ty) (fs : list field) (b : list Z) (old : list val).
Hypothesis Hb : bytes_ok b.
Hypothesis Hwf : Forall (fun t => wf t = true) ts.
Hypothesis Hm : Forall2 (fun t f => matches t (snd f) = true) ts fs.
Hypothesis Hrec : Forall2 (fun t f => sound t (snd f)) ts fs.
Hypothesis Hok : Forall split_ok fs.
Let room := fixed_room (sizes_of fs).
Hypothesis Hroom : 0 < room.
Hypothesis Hold : holds (map wt ts) old.

Lemma types_length : length ts = @length field fs.
Proof. exact (Forall2_len _ _ _ Hm). Qed.
Lemma field_type k f : nth_error fs k = Some f ->
  exists t, nth_error ts k = Some t /\ wf t = true /\ matches t (snd f) = true /\ sound t (snd f) /\ vt_size (vt t) = sty_size (snd f).
Proof.
  clear - Hwf Hm Hrec. intros Hk. 
  assert (exists t, nth_error ts k = Some t /\ wf t = true /\ matches t (snd f) = true /\ sound t (snd f)) as (t & Ht & Wt & M & S).
  { revert k Hk Hwf Hrec. induction Hm as [|t g ts' fs' M M' IH]; intros [|k] Hk Hw Hr; try discriminate; inversion Hw; inversion Hr; subst; cbn in *.
    - injection Hk as <-. eauto.
    - apply IH; auto. }
  exists t. repeat (split; [assumption|]). symmetry. exact (matches_size t Wt _ M).
Qed.
Lemma call_result k f t o i j r o' : nth_error fs k = Some f -> nth_error ts k = Some t -> holds (map wt ts) o -> 0 <= i <= j -> j <= zlen b ->
  call_des (vt t) k o b i j = Ok (r, o') ->
  holds (map wt ts) o' /\ exists v, o' = upd o k v /\
  if r then accepts (snd f) (bytes_at b i j) v else ~ accepted f (bytes_at b i j) /\ leftover (snd f) (bytes_at b i j) (nth k o (VSeq [])) v.
Proof.
  intros Hf Ht Ho Hij Hj E. destruct (field_type k f Hf) as (t' & Ht' & Wt & M & S & _).
  assert (t' = t) by congruence. subst t'. clear Ht'. pose proof (holds_nth _ _ _ _ Ho Ht) as Wn.
  assert (Hc : bytes_ok (bytes_at b i j)) by now apply bytes_at_ok.
  unfold call_des in E. rewrite slice_bytes_at in E by lia. cbn [bind] in E.
  rewrite (nth_indep o (vt_default (vt t)) (VSeq [])) in E.
  2:{ rewrite (holds_length _ _ Ho). apply nth_error_Some. congruence. }
  destruct (vt_des _ _ _) as [[r' v]| |] eqn:Ed; cbn [bind] in E; try discriminate. injection E as -> <-.
  split. { apply (holds_upd ts o k t v Ho Ht). exact (result_wt t _ _ r v Wt Wn Hc Ed). }
  exists v. split; [reflexivity|].
  pose proof (fun w => acceptance t (snd f) (nth k o (VSeq [])) (bytes_at b i j) w Wt M Wn Hc) as A. unfold deserialize in A. destruct r.
  - apply A. exact Ed.
  - split; [|now apply S]. intros (w & X). apply A in X. congruence.
Qed.

(** What the object holds when [seen] has been read. *)
Definition so_far (seen : list field) (o : list val) : Prop :=
  read_so_far room seen b /\ holds (map wt ts) o /\
  forall i f, nth_error fs i = Some f ->
    (ended seen i -> accepts (snd f) (field_bytes seen b i) (nth i o (VSeq []))) /\
    (~ ended seen i -> nth i o (VSeq []) = nth i old (VSeq [])).
Lemma stop_heads seen rest o : fs = seen ++ rest -> so_far seen o -> rest <> [] ->
  ~ heads_ok room (seen ++ firstn 1 rest) b -> leftover (SContainer fs) b (VSeq old) (VSeq o).
Proof.
  intros E (R & Ho & S) Hne N. rewrite E. apply L_container; rewrite <- ?E; fold room.
  - exact R.
  - intros _ [X _]. exact (N X).
  - rewrite (holds_length _ _ Ho), (holds_length _ _ Hold). reflexivity.
  - intros i f Hf. destruct (S i f Hf) as [S1 S2].
    assert (D : ended seen i \/ ~ ended seen i).
    { unfold ended. destruct (Nat.lt_ge_cases i (length seen)) as [Hi|Hi]; [|right; lia].
      destruct (last_variable seen) as [k|]; [|left; split; [exact Hi|discriminate]].
      destruct (Nat.eq_dec k i) as [->|Hn]; [right; tauto|left; split; [exact Hi|congruence]]. }
    destruct D as [D|D]; [left; auto|]. right. right. split; [exact D|]. split; [|auto]. intros [X _]. exact (N X).
Qed.
Lemma stop_part seen rest o k f v : fs = seen ++ rest -> so_far seen o ->
  heads_ok room (seen ++ firstn 1 rest) b -> tried room seen rest b k -> nth_error fs k = Some f ->
  ~ accepted f (field_bytes (seen ++ firstn 1 rest) b k) ->
  leftover (snd f) (field_bytes (seen ++ firstn 1 rest) b k) (nth k o (VSeq [])) v ->
  leftover (SContainer fs) b (VSeq old) (VSeq (upd o k v)).
Proof.
  intros E (R & Ho & S) Hh T Hf N L.
  assert (NE : ~ ended seen k) by (apply (tried_not_ended room seen rest b); [rewrite <- E; exact Hok|exact T]).
  assert (Hk : (k < length o)%nat).
  { pose proof types_length as Lm. pose proof (holds_length _ _ Ho) as Lo.
    assert ((k < length fs)%nat) by (apply nth_error_Some; congruence). lia. }
  rewrite E. apply L_container; rewrite <- ?E; fold room.
  - exact R.
  - intros Hne [_ X]. destruct rest as [|g rest]; [easy|]. cbn [firstn] in *.
    apply N. rewrite E in Hf. apply X.
    + destruct T as [_ T]. destruct (is_variable (snd g)) eqn:V.
      * rewrite last_variable_sizes in T by (rewrite E in Hok; apply Forall_app in Hok; tauto).
        apply lastz_lt in T. rewrite sizes_length in T. rewrite nth_error_app1 in Hf |- * by exact T. exact Hf.
      * subst k. rewrite nth_error_app2, Nat.sub_diag in Hf |- * by lia. exact Hf.
    + assert (Hs : Forall split_ok (seen ++ [g])).
      { rewrite E in Hok. apply Forall_app in Hok as [H1 H2]. apply Forall_app. split; [exact H1|]. inversion H2; subst. repeat constructor; apply H3. }
      apply (ended_snoc seen g Hs). right. destruct T as [_ T]. exact T.
  - rewrite upd_length, (holds_length _ _ Ho), (holds_length _ _ Hold). reflexivity.
  - intros i g Hg. destruct (S i g Hg) as [S1 S2]. destruct (Nat.eq_dec i k) as [->|Hn].
    + right. left. split; [exact T|]. assert (g = f) by congruence. subst g. rewrite nth_upd_eq by exact Hk. rewrite <- S2 by exact NE. exact L.
    + rewrite nth_upd_neq by lia.
      assert (D : ended seen i \/ ~ ended seen i).
      { unfold ended. destruct (Nat.lt_ge_cases i (length seen)) as [Hi|Hi]; [|right; lia].
        destruct (last_variable seen) as [k'|]; [|left; split; [exact Hi|discriminate]].
        destruct (Nat.eq_dec k' i) as [->|Hn']; [right; tauto|left; split; [exact Hi|congruence]]. }
      destruct D as [D|D]; [left; auto|]. right. right. split; [exact D|]. split; [|auto].
      intros [_ T']. destruct T as [_ T]. destruct rest as [|h rest]; [congruence|]. destruct (is_variable (snd h)); [congruence|lia].
Qed.

Lemma loop_left : forall rest seen, fs = seen ++ rest -> forall qs, skipn (length seen) ts = qs -> forall lo last o obj, so_far seen o ->
  match last_variable seen with
  | None => lo = 0 /\ last = None
  | Some i => exists t, last = Some (i, vt t) /\ nth_error ts i = Some t /\ lo = List.last (offsets (sizes_of seen) b 0) 0 /\ 0 < lo <= zlen b
  end ->
  deserialize_loop b room (number (length seen) (map vt qs)) (fixed_room (sizes_of seen)) lo last o = Ok (false, obj) ->
  leftover (SContainer fs) b (VSeq old) (VSeq obj).
Proof.
  assert (Hpre : forall seen rest i, fs = seen ++ rest -> last_variable seen = Some i -> exists f, nth_error fs i = Some f /\ nth_error seen i = Some f).
  { intros seen rest i E Hl. rewrite last_variable_sizes in Hl by (rewrite E in Hok; apply Forall_app in Hok; tauto).
    apply lastz_lt in Hl. rewrite sizes_length in Hl. destruct (nth_error seen i) as [f|] eqn:Ef; [|apply nth_error_None in Ef; lia].
    exists f. split; [|reflexivity]. rewrite E, nth_error_app1 by exact Hl. exact Ef. }
  induction rest as [|f rest IH]; intros seen E qs Hqs lo last o obj So Hl X.
  - assert (qs = []).
    { subst qs. apply skipn_all2. pose proof types_length as Lm. rewrite app_nil_r in E. rewrite Lm, E. lia. }
    subst qs. rewrite H in X. cbn [map] in X. change (number (length seen) []) with (@nil (nat * vtable)) in X. cbn [deserialize_loop] in X.
    destruct (last_variable seen) as [i|] eqn:EL.
    + destruct Hl as (t & -> & Ht & Hlo & Hpos). replace (lo =? 0) with false in X by lia.
      destruct (Hpre seen [] i E EL) as (f & Hf & Hf').
      assert (S0 := So). destruct So as (R & Ho & So).
      apply (call_result i f t) in X; auto; try lia. destruct X as [_ (v & -> & NA & L)].
      assert (EP : field_bytes (seen ++ firstn 1 []) b i = bytes_at b lo (zlen b)).
      { cbn [firstn]. rewrite app_nil_r. assert (Hs : Forall split_ok seen) by (rewrite E, app_nil_r in Hok; exact Hok).
        rewrite last_variable_sizes in EL by exact Hs. rewrite (part_range _ b i (0, 0)) by (rewrite <- sizes_length; now apply lastz_lt).
        rewrite (range_pending b _ _ _ i EL). cbn [fst snd]. rewrite <- Hlo. reflexivity. }
      apply (stop_part seen [] o i f v); auto.
      * cbn [firstn]. rewrite app_nil_r. apply R.
      * split; [cbn [firstn]; rewrite app_nil_r; apply R|exact EL].
      * rewrite EP. exact NA.
      * rewrite EP. exact L.
    + destruct Hl as [-> ->]. discriminate X.
  - assert (Hf : nth_error fs (length seen) = Some f) by (rewrite E, nth_error_app2, Nat.sub_diag by lia; reflexivity).
    destruct (field_type _ f Hf) as (t & Ht & Wt & M & _ & Esz).
    assert (Hs : Forall split_ok (seen ++ [f])).
    { rewrite E in Hok. apply Forall_app in Hok as [H1 H2]. apply Forall_app. split; [exact H1|]. inversion H2; subst. repeat constructor; apply H3. }
    assert (Hs1 : Forall split_ok seen) by now apply Forall_app in Hs.
    assert (Hv : is_variable (snd f) = (sty_size (snd f) =? 0)) by (apply Forall_app in Hs as [_ Hs]; inversion Hs as [|? ? [_ V] _]; exact V).
    assert (Hsz : 0 <= sty_size (snd f)) by (apply Forall_app in Hs as [_ Hs]; inversion Hs as [|? ? [V _] _]; exact V).
    destruct qs as [|t' qs]. { apply (f_equal (@length ty)) in Hqs. rewrite skipn_length in Hqs. cbn in Hqs.
      assert (length seen < length ts)%nat by (apply nth_error_Some; congruence). lia. }
    destruct (skipn_nth _ _ _ _ Hqs) as [Ht' Hqs']. assert (t' = t) by congruence. subst t'. clear Ht'.
    assert (E' : fs = (seen ++ [f]) ++ rest) by (rewrite <- app_assoc; exact E).
    assert (EL1 : length (seen ++ [f]) = S (length seen)) by (rewrite app_length; cbn; lia).
    cbn [map] in X. rewrite number_cons in X. cbn [deserialize_loop] in X. rewrite Esz in X.
    specialize (IH (seen ++ [f]) E' qs ltac:(rewrite EL1; exact Hqs')). rewrite EL1 in IH.
    rewrite (sizes_snoc seen f), room_app, offsets_snoc in IH. replace (0 + fixed_room (sizes_of seen)) with (fixed_room (sizes_of seen)) in IH by lia.
    rewrite (last_snoc seen f Hs) in IH.
    pose proof (heads_snoc room b seen f Hs) as HS. pose proof (read_snoc room b seen f Hs) as RS.
    pose proof (part_new b seen f Hs) as PN. pose proof (fun i => part_ended b seen f Hs i) as PE. pose proof (fun i => part_pending b seen f Hs i) as PP.
    pose proof (fun i => ended_snoc seen f Hs i) as ES.
    set (it := fixed_room (sizes_of seen)) in *.
    assert (Hit : 0 <= it) by now apply room_nonneg.
    assert (S0 := So). destruct So as (R & Ho & So).
    assert (Rh : heads_ok room seen b) by apply R.
    assert (Hne : f :: rest <> []) by discriminate.
    assert (Bad : ~ heads_ok room (seen ++ [f]) b -> leftover (SContainer fs) b (VSeq old) (VSeq o)).
    { intros N. exact (stop_heads seen (f :: rest) o E S0 Hne N). }
    rewrite Hv in *. destruct (Z.eqb_spec (sty_size (snd f)) 0) as [Hz|Hz]; cbn [negb] in X.
    + (* an offset *)
      unfold BYTES_PER_LENGTH_OFFSET in X.
      destruct (Z.ltb_spec (zlen b - it) 4) as [Hsh|Hsh]. { injection X as <-. apply Bad. rewrite HS. lia. }
      rewrite slice_bytes_at in X by lia. cbn [bind] in X. fold (u32_at b it) in X. pose proof (u32_at_nonneg b it Hb) as Hn.
      destruct (Z.ltb_spec (zlen b) (u32_at b it)) as [Hov|Hin]. { injection X as <-. apply Bad. rewrite HS. lia. }
      destruct (last_variable seen) as [i|] eqn:EL.
      * destruct Hl as (tp & -> & Htp & Hlo & Hpos). replace (lo =? 0) with false in X by lia. cbn [negb] in X. rewrite <- Hlo in *.
        destruct (Z.ltb_spec (u32_at b it) lo) as [Hdec|Hinc]. { injection X as <-. apply Bad. rewrite HS. lia. }
        assert (Hh : heads_ok room (seen ++ [f]) b) by (apply HS; split; [exact Rh|lia]).
        destruct (call_des (vt tp) i o b lo (u32_at b it)) as [[r o1]| |] eqn:Ec; cbn [bind] in X; try discriminate.
        destruct (Hpre seen (f :: rest) i E EL) as (g & Hg & Hg').
        apply (call_result i g tp) in Ec; auto; try lia. destruct Ec as [Ho1 (v & -> & A)].
        assert (Hk : (i < length o)%nat) by (rewrite (holds_length _ _ Ho); apply nth_error_Some; congruence).
        destruct r.
        -- apply IH in X; auto.
           ++ split; [|split; [exact Ho1|]].
              { apply RS. split; [exact R|]. split; [exact Hh|]. intros j h Hj Hh'. injection Hj as <-. assert (h = g) by congruence. subst h.
                rewrite PP by reflexivity. exists v. exact A. }
              intros j h Hj. destruct (So j h Hj) as [S1 S2]. rewrite ES. destruct (Nat.eq_dec j i) as [->|Hji].
              ** rewrite nth_upd_eq by exact Hk. assert (h = g) by congruence. subst h. split; [|tauto].
                 intros _. rewrite PP by reflexivity. exact A.
              ** rewrite nth_upd_neq by lia. split.
                 { intros [D|D]; [rewrite PE by exact D; auto|congruence]. }
                 { intros D. apply S2. tauto. }
           ++ exists t. rewrite last_last. repeat split; auto; lia.
        -- injection X as <-. destruct A as [NA L]. apply (stop_part seen (f :: rest) o i g v); auto.
           { split; [exact Hh|]. rewrite Hv. exact EL. }
           { cbn [firstn]. rewrite PP by reflexivity. exact NA. }
           { cbn [firstn]. rewrite PP by reflexivity. exact L. }
      * destruct Hl as [-> ->]. cbn [Z.eqb negb] in X.
        destruct (Z.eqb_spec (u32_at b it) room) as [He|He]; cbn [negb] in X. 2:{ injection X as <-. apply Bad. rewrite HS. lia. }
        assert (Hh : heads_ok room (seen ++ [f]) b) by (apply HS; split; [exact Rh|lia]).
        apply IH in X; auto.
        -- split; [|split; [exact Ho|]].
           { apply RS. split; [exact R|]. split; [exact Hh|]. intros j h Hj. discriminate Hj. }
           intros j h Hj. destruct (So j h Hj) as [S1 S2]. rewrite ES. split.
           { intros [D|D]; [rewrite PE by exact D; auto|discriminate D]. }
           { intros D. apply S2. tauto. }
        -- exists t. rewrite last_last. repeat split; auto; lia.
    + (* a fixed-size field *)
      destruct (Z.ltb_spec (zlen b - it) (sty_size (snd f))) as [Hsh|Hsh]. { injection X as <-. apply Bad. rewrite HS. lia. }
      assert (Hh : heads_ok room (seen ++ [f]) b) by (apply HS; split; [exact Rh|lia]).
      destruct (call_des (vt t) (length seen) o b it (it + sty_size (snd f))) as [[r o1]| |] eqn:Ec; cbn [bind] in X; try discriminate.
      apply (call_result (length seen) f t) in Ec; auto; try lia. destruct Ec as [Ho1 (v & -> & A)].
      assert (Hk : (length seen < length o)%nat) by (rewrite (holds_length _ _ Ho); apply nth_error_Some; congruence).
      destruct r.
      * apply IH in X; auto.
        -- split; [|split; [exact Ho1|]].
           { apply RS. split; [exact R|]. split; [exact Hh|]. rewrite PN. exists v. exact A. }
           intros j h Hj. destruct (So j h Hj) as [S1 S2]. rewrite ES. destruct (Nat.eq_dec j (length seen)) as [->|Hji].
           ++ rewrite nth_upd_eq by exact Hk. assert (h = f) by congruence. subst h. split; [|tauto].
              intros _. rewrite PN. exact A.
           ++ rewrite nth_upd_neq by lia. split.
              { intros [D|D]; [rewrite PE by exact D; auto|congruence]. }
              { intros D. apply S2. tauto. }
        -- rewrite app_nil_r. exact Hl.
      * injection X as <-. destruct A as [NA L]. apply (stop_part seen (f :: rest) o (length seen) f v); auto.
        { split; [exact Hh|]. rewrite Hv. reflexivity. }
        { cbn [firstn]. rewrite PN. exact NA. }
        { cbn [firstn]. rewrite PN. exact L. }
Qed.
End Container.

Lemma class_shape fs fields : Forall (fun t => wf t = true) fs -> fs <> [] -> Forall2 (fun t f => matches t (snd f) = true) fs fields ->
  sizes_of fields = map vt_size (map vt fs) /\ Forall split_ok fields /\ 0 < fixed_room (sizes_of fields).
Proof.
  intros Hw Hne Hm.
  assert (Hsizes : sizes_of fields = map vt_size (map vt fs)).
  { clear - Hm Hw. induction Hm as [|t0 g fs gs Hg _ IH]; auto. inversion Hw; subst.
    unfold sizes_of in *. cbn [map]. f_equal; auto. now apply matches_size. }
  split; [exact Hsizes|]. split.
  - clear - Hm Hw. induction Hm as [|t0 g fs gs Hg _ IH]; constructor; inversion Hw; subst; auto. split.
    + rewrite (matches_size t0 H1 _ Hg). eapply g_size. apply (good_all t0 H1 false). discriminate.
    + rewrite (matches_size t0 H1 _ Hg). now apply matches_variable.
  - rewrite Hsizes, fixed_room_vt. apply (vt_fixed_pos false (map vt fs) (map wt fs)).
    + clear - Hw. induction Hw; cbn [map]; constructor; auto. apply good_all; auto; discriminate.
    + destruct fs; [easy|discriminate].
Qed.

Theorem failed_leftover t : wf t = true -> forall s, matches t s = true -> sound t s.
Proof.
  induction t using ty_ind'; intros Hwf s Hm old b v Ho Hb E; destruct s; try discriminate Hm;
    try (apply leaf_unchanged in E; [|reflexivity]; subst v; constructor; reflexivity).
  - (* Vector *)
    cbn [matches wf] in *. rewrite !andb_true_iff in *. destruct Hm as [Hn Hm], Hwf as [[Hwf Hn0] Hsz].
    apply Z.eqb_eq in Hn. subst. pose proof (matches_size t Hwf s Hm) as Es. unfold get_ssz_size in *.
    apply Z.ltb_lt in Hsz.
    unfold deserialize in E. cbn [vt vt_des] in E. unfold vector_deserialize in E. rewrite <- Es in E.
    destruct (Z.eqb_spec (zlen b) (n0 * sty_size s)) as [Hl|Hl]; cbn [negb] in E. 2:{ injection E as <-. now apply L_length. }
    destruct old; try discriminate. cbn [wt] in Ho. destruct Ho as [Hlen Ho].
    destruct (vector_des_loop (vt t) b 0 l) as [[ok arr]| |] eqn:El; cbn [bind] in E; try discriminate.
    injection E as -> <-. apply (vector_loop t s b Hwf Hm Hb) in El; try lia; auto.
    destruct El as (o1 & o & o2 & l1 & v & -> & -> & El & A & W & D).
    replace (0 + zlen l1) with (zlen l1) in D by lia. unfold cell in D.
    assert (Hc : bytes_ok (bytes_at b (zlen l1 * sty_size s) ((zlen l1 + 1) * sty_size s))) by now apply bytes_at_ok.
    apply L_vector; auto.
    + apply (parts_cells t s b l1); [lia|]. intros j Hj. exact (A j Hj).
    + intros (w & X). apply (acceptance t s o _ w Hwf Hm W Hc) in X. unfold deserialize in X. congruence.
    + apply IHt; auto.
  - (* ListF *)
    cbn [matches wf] in *. rewrite !andb_true_iff in *. destruct Hm as [_ Hm], Hwf as [Hwf Hsz].
    pose proof (matches_size t Hwf s Hm) as Es. pose proof (matches_variable t Hwf s Hm) as Ev. unfold get_ssz_size in *. apply Z.ltb_lt in Hsz.
    assert (Hv : is_variable s = false) by (rewrite Ev; apply Z.eqb_neq; lia). assert (Hs0 : 0 < sty_size s) by lia.
    unfold deserialize in E. cbn [vt vt_des] in E. unfold listf_deserialize in E. rewrite <- Es in E.
    destruct (_ =? 0); [discriminate|].
    destruct (Z.eqb_spec (zlen b mod sty_size s) 0) as [Hl|Hl]; cbn [negb] in E.
    2:{ injection E as <-. apply (listf_max t s b Hwf Hm Hb); auto; [now left|]. intros w X. apply fixed_snoc in X; auto. tauto. }
    destruct (listf_des_loop _ (vt t) b 0 []) as [[ok arr]| |] eqn:El; cbn [bind] in E; try discriminate.
    injection E as -> <-.
    apply (listf_loop t s b Hwf Hm Hb Hv Hs0 (eq_sym Es) Hl _ [] arr (or_introl eq_refl)) in El. destruct El as [H1 H2].
    now apply (listf_max t s b Hwf Hm Hb).
  - (* ListV *)
    cbn [matches wf] in *. rewrite !andb_true_iff in *. destruct Hm as [_ Hm], Hwf as [Hwf Hsz].
    pose proof (matches_variable t Hwf s Hm) as Ev. unfold get_ssz_size in *.
    assert (Hv : is_variable s = true) by congruence.
    assert (Nil : forall lim v, (forall w, ~ elements_read s b ([] ++ [w])) -> v = VSeq [] -> leftover (SList s lim) b old v).
    { intros lim w N ->. apply (listv_max t s b Hwf Hm Hb); auto. now left. }
    unfold deserialize in E. cbn [vt vt_des] in E. unfold listv_deserialize, BYTES_PER_LENGTH_OFFSET in E.
    assert (Step : forall w, elements_read s b ([] ++ [w]) -> 8 <= u32_at b 0 <= zlen b).
    { intros w X. apply variable_snoc in X as (_ & X & _); auto. }
    destruct (Z.eqb_spec (zlen b) 0) as [H0|H0]; [discriminate|].
    destruct (Z.ltb_spec (zlen b) 4) as [H4|H4]. { injection E as <-. apply Nil; auto. intros w X. apply Step in X. lia. }
    rewrite slice_bytes_at in E by lia. cbn [bind] in E. change (le_val (bytes_at b 0 4)) with (u32_at b 0) in E.
    destruct (Z.ltb_spec (u32_at b 0) 4) as [L4|L4]. { injection E as <-. apply Nil; auto. intros w X. apply Step in X. lia. }
    destruct (Z.ltb_spec (zlen b) (u32_at b 0)) as [Lz|Lz]. { injection E as <-. apply Nil; auto. intros w X. apply Step in X. lia. }
    destruct (listv_des_loop _ (vt t) b _ _ _ []) as [[ok arr]| |] eqn:El; cbn [bind] in E; try discriminate.
    injection E as -> <-.
    apply (listv_loop t s b Hwf Hm Hb (u32_at b 0) Hv eq_refl Lz _ [] arr (or_introl eq_refl)) in El.
    + destruct El as [H1 H2]. now apply (listv_max t s b Hwf Hm Hb).
    + exact Lz.
    + change (zlen (@nil val)) with 0. lia.
  - (* class *)
    apply wf_class in Hwf. destruct Hwf. cbn [matches] in Hm. apply all2b_Forall2 in Hm.
    apply (class_W_wt ci fs) in Ho. destruct old as [| | | |l0]; cbn [class_W] in Ho; try tauto.
    destruct (class_shape fs fields cw_fields cw_nonempty Hm) as (Hsizes & Hok & Hpos).
    unfold deserialize in E. cbn [vt vt_des class_deserialize] in E. unfold deserialize_ in E. rewrite cw_des, <- (map_length vt fs), pick_des_number in E.
    assert (M : map snd (number 0 (map vt fs)) = map vt fs).
    { unfold number. generalize 0%nat. generalize (map vt fs). clear. induction l; intros k; cbn; auto. f_equal. apply IHl. }
    rewrite M, compute_fixed_length_eq in E. unfold u32 in E.
    rewrite Hsizes, fixed_room_vt in Hpos. rewrite Z.mod_small in E by (rewrite vt_fixed_fixed_size in *; lia).
    rewrite <- fixed_room_vt, <- Hsizes in E, Hpos.
    destruct (deserialize_loop _ _ _ _ _ _ _) as [[ok obj]| |] eqn:El; cbn [bind] in E; try discriminate.
    injection E as -> <-.
    assert (Hrec : Forall2 (fun t f => sound t (snd f)) fs fields).
    { clear - H Hm cw_fields. revert H cw_fields. induction Hm as [|t0 g fs gs Hg _ IH]; intros Ha Hw; constructor; inversion Ha; inversion Hw; subst; auto. }
    apply (loop_left fs fields b l0 Hb cw_fields Hm Hrec Hok Hpos Ho fields [] eq_refl fs eq_refl 0 None l0 obj); auto. 2:{ cbn. auto. }
    split; [|split; [exact Ho|]].
    + split; [|intros i f Hf; destruct i; discriminate Hf].
      unfold heads_ok. cbn. pose proof (zlen_nonneg b). repeat split; auto; constructor.
    + intros i f Hf. split; [intros [X _]; cbn in X; lia|reflexivity].
Qed.

(** ** What is left is determined *)
Lemma read_prefix room b : forall more seen, Forall split_ok (seen ++ more) -> read_so_far room (seen ++ more) b -> read_so_far room seen b.
Proof.
  induction more as [|f more IH] using rev_ind; intros seen Hok R; [now rewrite app_nil_r in R|].
  rewrite app_assoc in R, Hok. apply (read_snoc room b (seen ++ more) f Hok) in R as [R _]. apply IH; auto. now apply Forall_app in Hok.
Qed.
Lemma longest_prefix room b : forall fs seen rest seen' rest', Forall split_ok fs -> fs = seen ++ rest -> fs = seen' ++ rest' ->
  read_so_far room seen b -> (rest' <> [] -> ~ read_so_far room (seen' ++ firstn 1 rest') b) -> (length seen <= length seen')%nat.
Proof.
  intros fs seen rest seen' rest' Hok E E' R N. destruct (Nat.le_gt_cases (length seen) (length seen')) as [L|L]; [exact L|exfalso].
  destruct rest' as [|f rest'].
  - rewrite app_nil_r in E'. subst seen'. apply (f_equal (@length field)) in E. rewrite app_length in E. lia.
  - apply N; [discriminate|]. cbn [firstn].
    assert (P : exists m, seen = (seen' ++ [f]) ++ m).
    { rewrite E in E'. clear - E' L. revert seen' E' L. induction seen as [|x seen IH]; intros seen' E L; [cbn in L; lia|].
      destruct seen' as [|y seen']; injection E as -> E.
      - exists seen. reflexivity.
      - destruct (IH seen' E ltac:(cbn in L; lia)) as (m & ->). exists m. reflexivity. }
    destruct P as (m & ->). apply read_prefix in R; auto. subst fs. apply Forall_app in Hok. tauto.
Qed.

Definition determined (t : ty) (s : sty) : Prop :=
  forall old b v w, wt t old -> bytes_ok b -> leftover s b old v -> leftover s b old w -> v = w.
Lemma bytes_ok_field fs b i : bytes_ok b -> bytes_ok (field_bytes fs b i).
Proof.
  intros Hb. unfold field_bytes, parts. set (g := fun r : Z * Z => bytes_at b (fst r) (snd r)).
  destruct (Nat.lt_ge_cases i (length (map g (part_ranges (sizes_of fs) b 0)))) as [L|L].
  - rewrite (nth_indep _ [] (g (0, 0))) by exact L. rewrite map_nth. now apply bytes_at_ok.
  - rewrite nth_overflow by exact L. constructor.
Qed.
Theorem leftover_determined t : wf t = true -> forall s, matches t s = true -> determined t s.
Proof.
  induction t using ty_ind'; intros Hwf s Hm old b v w Ho Hb V W; destruct s; try discriminate Hm;
    try (inversion V; subst; inversion W; subst; reflexivity).
  - (* Vector *)
    cbn [matches wf] in *. rewrite !andb_true_iff in *. destruct Hm as [Hn Hm], Hwf as [[Hwf Hn0] Hsz].
    pose proof (matches_size t Hwf s Hm) as Es. unfold get_ssz_size in *. apply Z.ltb_lt in Hsz. assert (Hs0 : 0 < sty_size s) by lia.
    inversion V as [? ? ? X| |? ? ? ? N1|? ? ? o1 o o2 l v0 c N1 L1 F1 A1 D1|]; try discriminate X; subst;
    inversion W as [? ? ? Y| |? ? ? ? N2|? ? ? p1 p p2 m w0 d N2 L2 F2 A2 D2|]; try discriminate Y; subst; try contradiction; try reflexivity.
    match goal with X : _ ++ _ :: _ = _ ++ _ :: _ |- _ => rename X into P2 end.
    rewrite (parts_cells t s b) in F1, F2 by exact Hs0. unfold cell in F1, F2.
    assert (L : length l = length m).
    { destruct (Nat.lt_trichotomy (length l) (length m)) as [L|[L|L]]; [exfalso|exact L|exfalso].
      - apply A1. eexists. exact (F2 _ L).
      - apply A2. eexists. exact (F1 _ L). }
    apply app_eq_app in P2 as (k & [[-> E]|[-> E]]); rewrite ?app_length in *.
    + assert (k = []) by (destruct k; [reflexivity|cbn in *; lia]). subst k. cbn [app] in E. injection E as -> ->. f_equal. f_equal.
      * apply (nth_ext _ _ (VSeq []) (VSeq []) L). intros j Hj. eapply (accepts_unique t s Hwf Hm); [|exact (F1 j Hj)|exact (F2 j ltac:(lia))]. now apply bytes_at_ok.
      * f_equal. cbn [wt] in Ho. destruct Ho as [_ Ho]. apply Forall_app in Ho as [_ Ho]. inversion Ho; subst.
        unfold zlen in *. unfold c, d in *. rewrite L in *. refine (IHt Hwf s Hm _ _ _ _ _ _ D1 D2); [assumption|now apply bytes_at_ok].
    + assert (k = []) by (destruct k; [reflexivity|cbn in *; lia]). subst k. cbn [app] in E. injection E as -> ->. f_equal. f_equal.
      * apply (nth_ext _ _ (VSeq []) (VSeq []) L). intros j Hj. eapply (accepts_unique t s Hwf Hm); [|exact (F1 j Hj)|exact (F2 j ltac:(lia))]. now apply bytes_at_ok.
      * f_equal. cbn [wt] in Ho. destruct Ho as [_ Ho]. apply Forall_app in Ho as [_ Ho]. inversion Ho; subst.
        unfold zlen in *. unfold c, d in *. rewrite L in *. refine (IHt Hwf s Hm _ _ _ _ _ _ D1 D2); [assumption|now apply bytes_at_ok].
  - (* ListF *)
    cbn [matches wf] in *. rewrite !andb_true_iff in *. destruct Hm as [_ Hm], Hwf as [Hwf Hsz].
    pose proof (matches_size t Hwf s Hm) as Es. pose proof (matches_variable t Hwf s Hm) as Ev. unfold get_ssz_size in *. apply Z.ltb_lt in Hsz.
    assert (Hv : is_variable s = false) by (rewrite Ev; apply Z.eqb_neq; lia). assert (Hs0 : 0 < sty_size s) by lia.
    inversion V as [? ? ? X|? ? ? ? l R1 M1| | |]; try discriminate X; subst. inversion W as [? ? ? Y|? ? ? ? m R2 M2| | |]; try discriminate Y; subst.
    assert (L : length l = length m) by (apply Nat.le_antisymm; auto). f_equal.
    clear - R1 R2 L Hv Hs0 Hb Hwf Hm. revert m R2 L. induction l as [|x l IH] using rev_ind; intros m R2 L.
    { destruct m; [reflexivity|discriminate]. }
    destruct m as [|y m _] using rev_ind; [rewrite app_length in L; cbn in L; lia|].
    rewrite !app_length in L. cbn in L. assert (L' : length l = length m) by lia.
    apply fixed_snoc in R1 as (R1 & _ & _ & A1); auto. apply fixed_snoc in R2 as (R2 & _ & _ & A2); auto.
    unfold zlen in A1, A2. rewrite L' in A1.
    rewrite (IH R1 m R2 L'). f_equal. f_equal. eapply (accepts_unique t s Hwf Hm); [|exact A1|exact A2]. now apply bytes_at_ok.
  - (* ListV *)
    cbn [matches wf] in *. rewrite !andb_true_iff in *. destruct Hm as [_ Hm], Hwf as [Hwf Hsz].
    pose proof (matches_variable t Hwf s Hm) as Ev. assert (Hv : is_variable s = true) by congruence.
    inversion V as [? ? ? X|? ? ? ? l R1 M1| | |]; try discriminate X; subst. inversion W as [? ? ? Y|? ? ? ? m R2 M2| | |]; try discriminate Y; subst.
    assert (L : length l = length m) by (apply Nat.le_antisymm; auto). f_equal.
    clear - R1 R2 L Hv Hb Hwf Hm. revert m R2 L. induction l as [|x l IH] using rev_ind; intros m R2 L.
    { destruct m; [reflexivity|discriminate]. }
    destruct m as [|y m _] using rev_ind; [rewrite app_length in L; cbn in L; lia|].
    rewrite !app_length in L. cbn in L. assert (L' : length l = length m) by lia.
    apply variable_snoc in R1 as (R1 & _ & _ & A1); auto. apply variable_snoc in R2 as (R2 & _ & _ & A2); auto.
    unfold zlen in A1, A2. rewrite L' in A1.
    rewrite (IH R1 m R2 L'). f_equal. f_equal. eapply (accepts_unique t s Hwf Hm); [|exact A1|exact A2]. now apply bytes_at_ok.
  - (* class *)
    apply wf_class in Hwf. destruct Hwf. cbn [matches] in Hm. apply all2b_Forall2 in Hm.
    apply (class_W_wt ci fs) in Ho. destruct old as [| | | |l0]; cbn [class_W] in Ho; try tauto.
    destruct (class_shape fs fields cw_fields cw_nonempty Hm) as (Hsizes & Hok & Hpos).
    assert (Det : Forall2 (fun t f => wf t = true /\ matches t (snd f) = true /\ determined t (snd f)) fs fields).
    { clear - H Hm cw_fields. revert H cw_fields. induction Hm as [|t0 g fs gs Hg _ IH]; intros Ha Hw; constructor; inversion Ha; inversion Hw; subst; auto. }
    inversion V as [? ? ? X| | | |seen rest ? o l room R1 M1 L1 A1 E1]; try discriminate X; subst o b0.
    inversion W as [? ? ? Y| | | |seen' rest' ? o l' room' R2 M2 L2 A2 E2]; try discriminate Y; subst o b0.
    assert (Er : room' = room) by (unfold room, room'; congruence). rewrite Er in *.
    assert (Es : length seen = length seen').
    { apply Nat.le_antisymm; [apply (longest_prefix room b fields seen rest seen' rest')|apply (longest_prefix room b fields seen' rest' seen rest)]; auto. }
    assert (seen = seen' /\ rest = rest') as [<- <-].
    { rewrite <- E2 in E1. clear - E1 Es. revert seen' Es E1. induction seen as [|x seen IH]; intros [|y seen'] L E; try discriminate; [auto|].
      injection E as -> E. destruct (IH seen' ltac:(cbn in L; lia) E) as [-> ->]. auto. }
    subst v w. f_equal. apply (nth_ext _ _ (VSeq []) (VSeq [])); [congruence|]. intros i Hi.
    assert (Li : (i < @length field (seen ++ rest))%nat).
    { pose proof (Forall2_len _ _ _ Hm) as Q. pose proof (holds_length _ _ Ho) as Q'. unfold field in *. rewrite E1, <- Q, <- Q', <- L1. exact Hi. }
    destruct (nth_error (seen ++ rest) i) as [f|] eqn:Ef; [|apply nth_error_None in Ef; lia].
    assert (exists t, nth_error fs i = Some t /\ wf t = true /\ matches t (snd f) = true /\ determined t (snd f)) as (t & Ht & Wt & Mt & Dt).
    { rewrite E1 in Ef. clear - Ef Det. revert i Ef. induction Det as [|t0 g fs gs Hg _ IH]; intros [|i] Ef; try discriminate.
      - cbn in Ef. injection Ef as <-. exists t0. cbn. auto.
      - cbn in *. auto. }
    assert (TE : tried room seen rest b i -> ~ ended seen i) by (apply tried_not_ended; rewrite E1; exact Hok).
    destruct (A1 i f Ef) as [[D1 B1]|[[D1 B1]|(D1 & D1' & B1)]]; destruct (A2 i f Ef) as [[D2 B2]|[[D2 B2]|(D2 & D2' & B2)]]; try tauto.
    + eapply (accepts_unique t (snd f) Wt Mt); [|exact B1|exact B2]. now apply bytes_ok_field.
    + refine (Dt _ _ _ _ (holds_nth _ _ _ _ Ho Ht) _ B1 B2). now apply bytes_ok_field.
    + congruence.
Qed.

(** ** Exactly *)
Lemma rejected_parts t s old b : wf t = true -> matches t s = true -> wt t old -> bytes_ok b ->
  ((exists v, deserialize t old b = Ok (false, v)) <-> ~ undefined s b /\ ~ exists v, accepts s b v).
Proof.
  intros Hwf Hm Ho Hb. rewrite <- (deserialize_undefined t Hwf s Hm old b Ho Hb).
  assert (A : (exists v, accepts s b v) <-> exists v, deserialize t old b = Ok (true, v)).
  { split; intros (v & E); exists v; apply (acceptance t s old b v Hwf Hm Ho Hb); exact E. }
  rewrite A. pose proof (no_throw t old b Hwf Ho Hb) as N. unfold deserialize in *.
  destruct (vt_des (vt t) old b) as [[[] v]| |].
  - split; [intros (v' & E); discriminate E|]. intros [_ X]. exfalso. eauto.
  - split; [|eauto]. intros _. split; [discriminate|]. intros (v' & E). discriminate E.
  - tauto.
  - split; [intros (v' & E); discriminate E|tauto].
Qed.
Theorem leftover_parts t s old b v : wf t = true -> matches t s = true -> wt t old -> bytes_ok b ->
  (deserialize t old b = Ok (false, v) <-> (~ undefined s b /\ ~ exists w, accepts s b w) /\ leftover s b old v).
Proof.
  intros Hwf Hm Ho Hb. rewrite <- (rejected_parts t s old b Hwf Hm Ho Hb). split.
  - intros E. split; [eauto|]. now apply (failed_leftover t Hwf s Hm).
  - intros [(w & E) L]. rewrite E. do 2 f_equal. apply (leftover_determined t Hwf s Hm old b); auto. now apply (failed_leftover t Hwf s Hm).
Qed.
Theorem leftover_containers t s old b v : container_pair t s -> wt t old -> bytes_ok b ->
  (deserialize t old b = Ok (false, v) <-> (~ undefined s b /\ ~ exists w, accepts s b w) /\ leftover s b old v).
Proof.
  intros Hp. apply leftover_parts.
  - exact (is_container_wf _ (container_pair_container _ _ Hp)).
  - exact (container_pair_matches _ _ Hp).
Qed.
