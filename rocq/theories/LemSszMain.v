(** The walk of the test program through the directories. *)
From Coq Require Import ZArith String List Bool Lia.
From Verif Require Import Base SpecSSZ ModelSSZ ModelBytes ModelHashTree ModelTree ModelYaml ModelTest ModelEth SpecText SpecTest SpecPhase0 SpecClasses
  SpecTree LemTest ModelSszMain SpecSszMain.
Import ListNotations.
Open Scope string_scope.
Open Scope list_scope.
Open Scope Z_scope.

Definition good (x : bool * bool * bool) : bool := let '(a, b, c) := x in a && b && c.
Lemma good_true x : good x = true <-> x = (true, true, true).
Proof. destruct x as [[[] []] []]; cbn; split; congruence. Qed.
(** An outcome with a good list of results *)
Lemma mapM_good {A} (f : A -> outcome (bool * bool * bool)) l :
  passes (mapM f l) = true <-> forall a, In a l -> f a = Ok (true, true, true).
Proof.
  induction l as [|a l IH]; cbn [mapM].
  - split; [intros _ a []|reflexivity].
  - destruct (f a) as [x| |] eqn:E; cbn [bind].
    + destruct (mapM f l) as [r| |]; cbn [bind passes forallb] in *.
      * rewrite andb_true_iff, IH. change (let '(a0, b, c) := x in a0 && b && c) with (good x). rewrite good_true. split.
        -- intros [-> H] b [<-|Hb]; [exact E|exact (H _ Hb)].
        -- intros H. split; [|intros b Hb; apply H; now right]. specialize (H a (or_introl eq_refl)). congruence.
      * split; [discriminate|]. intros H. apply IH. intros b Hb. apply H. now right.
      * split; [discriminate|]. intros H. apply IH. intros b Hb. apply H. now right.
    + split; [discriminate|]. intros H. specialize (H a (or_introl eq_refl)). congruence.
    + split; [discriminate|]. intros H. specialize (H a (or_introl eq_refl)). congruence.
Qed.
Lemma concat_good {A} (f : A -> outcome (list (bool * bool * bool))) l :
  passes (let* r := mapM f l in Ok (concat r)) = true <-> forall a, In a l -> passes (f a) = true.
Proof.
  induction l as [|a l IH]; cbn [mapM].
  - split; [intros _ a []|reflexivity].
  - destruct (f a) as [x| |] eqn:E; cbn [bind].
    + destruct (mapM f l) as [r| |]; cbn [bind concat] in *.
      * cbn [passes] in *. rewrite forallb_app, andb_true_iff, IH. split.
        -- intros [H1 H2] b [<-|Hb]; [rewrite E; exact H1|exact (H2 _ Hb)].
        -- intros H. split; [|intros b Hb; apply H; now right]. specialize (H a (or_introl eq_refl)). rewrite E in H. exact H.
      * split; [discriminate|]. intros H. apply IH. intros b Hb. apply H. now right.
      * split; [discriminate|]. intros H. apply IH. intros b Hb. apply H. now right.
    + split; [discriminate|]. intros H. specialize (H a (or_introl eq_refl)). rewrite E in H. discriminate.
    + split; [discriminate|]. intros H. specialize (H a (or_introl eq_refl)). rewrite E in H. discriminate.
Qed.
Lemma lookup_in name x l : NoDup (map fst l) -> In (name, x) l -> lookup name l = Some x.
Proof.
  induction l as [|[n y] l IH]; intros N I; [destruct I|]. cbn [lookup map fst] in *. inversion N as [|? ? N1 N2]; subst.
  destruct I as [E|I].
  - injection E as -> ->. now rewrite String.eqb_refl.
  - destruct (String.eqb_spec n name) as [->|_]; [|auto]. destruct N1. now apply (in_map fst) in I.
Qed.
Lemma has_file_content l name b : has_file l name b -> content_of name l = Some b.
Proof. intros [N I]. unfold content_of. now rewrite (lookup_in _ _ _ N I). Qed.

Section Walk.
Variable e : externals.
Variable HB : list chunk -> list chunk.
Variable des : ty -> val -> list Z -> outcome (bool * val).
Variable uncompress : list Z -> option (list Z).
Variable load : list Z -> option ynode.

Lemma directory_exact t d : passes (test_directory e HB des uncompress load t d) = true <->
  exists l, d = Dir l /\ (l = [] \/ test_vector e HB des uncompress load t l = Ok (true, true, true)).
Proof.
  unfold test_directory. destruct d as [b|l]; cbn [iterate bind].
  - split; [discriminate|]. intros (l & E & _). discriminate.
  - rewrite mapM_good. split.
    + intros G. exists l. split; [reflexivity|]. destruct l as [|a l]; [now left|right]. apply (G a). now left.
    + intros (l' & E & H) a I. injection E as <-. destruct H as [->|H]; [destruct I|exact H].
Qed.
Lemma class_exact t base : passes (test_class e HB des uncompress load t base) = true <->
  exists b, base = Some b /\
    vectors_of (fun l => l = [] \/ test_vector e HB des uncompress load t l = Ok (true, true, true)) b.
Proof.
  unfold test_class, vectors_of. destruct base as [[b|l1]|]; cbn [iterate bind].
  - split; [discriminate|]. intros (x & E & l & E' & _). congruence.
  - rewrite concat_good. split.
    + intros G. exists (Dir l1). split; [reflexivity|]. exists l1. split; [reflexivity|]. intros n1 d1 I1. specialize (G _ I1). cbn [snd] in G.
      destruct d1 as [b|l2]; cbn [iterate bind] in G; [discriminate|]. exists l2. split; [reflexivity|].
      rewrite concat_good in G. intros n2 d2 I2. exact (proj1 (directory_exact t d2) (G _ I2)).
    + intros (x & E & l & E' & G) [n1 d1] I1. assert (l = l1) by congruence. subst l. destruct (G _ _ I1) as (l2 & -> & G2).
      cbn [snd iterate bind]. rewrite concat_good. intros [n2 d2] I2. cbn [snd]. apply directory_exact. exact (G2 _ _ I2).
  - split; [discriminate|]. intros (x & E & _). discriminate.
Qed.
Lemma vector_files t s v r b l : shows_vector load uncompress s v r b l -> exists value roots b3,
  shows s v value /\ shows sRoots (VSeq [VBytes r]) roots /\ uncompress b3 = Some b /\
  test_vector e HB des uncompress load t l = test_ssz e HB t (des t) (fun _ => uncompress b3) value roots b3.
Proof.
  intros (b1 & value & b2 & roots & b3 & F1 & L1 & S1 & F2 & L2 & S2 & F3 & U). exists value, roots, b3.
  split; [exact S1|]. split; [exact S2|]. split; [exact U|]. unfold test_vector.
  now rewrite (has_file_content _ _ _ F1), (has_file_content _ _ _ F2), (has_file_content _ _ _ F3), L1, L2.
Qed.
Lemma nothing c : test_program e HB des uncompress load c (map (fun x => (fst x, Dir [])) (all_classes c)) =
  map (fun x => (fst x, Ok [])) (test_list c).
Proof. reflexivity. Qed.
End Walk.

Lemma covers c name t : In (name, t) (all_classes c) <-> exists label, In (label, (name, t)) (test_list c).
Proof.
  split.
  - intros I. assert (J : In (name, t) (map snd (test_list c))) by (cbn [test_list map snd In]; cbn [all_classes In] in I; tauto).
    apply in_map_iff in J. destruct J as ([label [n t']] & E & J). cbn [snd] in E. exists label. congruence.
  - intros (label & I). apply (in_map snd) in I. cbn [snd test_list map In] in I. cbn [all_classes In]. tauto.
Qed.
Lemma covers_once c : NoDup (map fst (test_list c)) /\ NoDup (map (fun x => fst (snd x)) (test_list c)).
Proof. split; cbn [test_list map fst snd]; repeat constructor; cbn [In]; intuition discriminate. Qed.
Lemma idle c : exists vectors, forall e HB des uncompress load,
  test_program e HB des uncompress load c vectors = map (fun x => (fst x, Ok [])) (test_list c).
Proof. eexists. intros. apply nothing. Qed.
Lemma class_passes e H uncompress load t s base : reads e -> (forall x, zlen x = 64 -> zlen (H x) = 32) -> container_pair t s ->
  vectors_of (fun l => exists v, has_type s v /\ zlen (ssz_serialize s v) < 2 ^ 32 /\
    shows_vector load uncompress s v (ssz_hash_tree_root H s v) (ssz_serialize s v) l) base ->
  passes (test_class e (hash_pairs H) deserialize uncompress load t (Some base)) = true.
Proof.
  intros R HH P (l1 & -> & G). apply class_exact. exists (Dir l1). split; [reflexivity|]. exists l1. split; [reflexivity|].
  intros n1 d1 I1. destruct (G _ _ I1) as (l2 & -> & G2). exists l2. split; [reflexivity|].
  intros n2 d2 I2. destruct (G2 _ _ I2) as (l3 & -> & v & T & Z & F). exists l3. split; [reflexivity|]. right.
  destruct (vector_files e (hash_pairs H) deserialize uncompress load t s v _ _ l3 F) as (value & roots & b3 & S1 & S2 & U & ->).
  apply (vector_passes e H t s v R HH P T); auto.
Qed.
Lemma class_sound e H des uncompress load t s base : reads e -> container_pair t s ->
  passes (test_class e (hash_pairs H) des uncompress load t (Some base)) = true ->
  forall l v r b, vector_in base l -> has_type s v -> zlen r = 32 -> shows_vector load uncompress s v r b l ->
  r = ssz_hash_tree_root H s v /\ exists k, ssz_serialize s v = b ++ repeat 0 k.
Proof.
  intros R P G l v r b (l1 & n1 & l2 & n2 & -> & I1 & I2) T L F. apply class_exact in G. destruct G as (x & E & k1 & E1 & G).
  assert (k1 = l1) by congruence. subst k1. destruct (G _ _ I1) as (k2 & E2 & G2). injection E2 as <-.
  destruct (G2 _ _ I2) as (k3 & E3 & [->|V]); injection E3 as E3.
  - subst l. destruct F as (? & ? & ? & ? & ? & [_ []] & _).
  - subst k3. destruct (vector_files e (hash_pairs H) des uncompress load t s v r b l F) as (value & roots & b3 & S1 & S2 & U & W).
    rewrite W in V. destruct (vector_sound e H t s v R P T (des t) (fun _ => uncompress b3) value roots b3 r true S1 S2 L V) as (Er & data & k & U' & D).
    split; [exact Er|]. exists k. congruence.
Qed.
Lemma named c p name t : In (name, t) (all_classes c) -> exists s, In (name, s) (phase0_containers p).
Proof.
  intros I. assert (J : In name (map fst (phase0_containers p))).
  { apply (in_map fst) in I. cbn [map fst all_classes In] in I. cbn [map fst phase0_containers In]. tauto. }
  apply in_map_iff in J. destruct J as ([n s] & E & J). exists s. cbn [fst] in E. congruence.
Qed.
Lemma program_passes e H uncompress load c p vectors : reads e -> (forall x, zlen x = 64 -> zlen (H x) = 32) ->
  In (c, p) [(mainnet, preset_mainnet); (minimal, preset_minimal)] -> NoDup (map fst vectors) ->
  (forall name s, In (name, s) (phase0_containers p) -> exists base, In (name, base) vectors /\
     vectors_of (fun l => exists v, has_type s v /\ zlen (ssz_serialize s v) < 2 ^ 32 /\
       shows_vector load uncompress s v (ssz_hash_tree_root H s v) (ssz_serialize s v) l) base) ->
  forall label r, In (label, r) (test_program e (hash_pairs H) deserialize uncompress load c vectors) -> passes r = true.
Proof.
  intros R HH CP N G label r I. unfold test_program in I. apply in_map_iff in I. destruct I as ([lb [name t]] & E & I).
  cbn [fst snd] in E. assert (Er : test_class e (hash_pairs H) deserialize uncompress load t (lookup name vectors) = r) by congruence. subst r. clear E.
  assert (A : In (name, t) (all_classes c)) by (apply covers; now exists lb).
  destruct (named c p name t A) as (s & B). destruct (G _ _ B) as (base & J & V). rewrite (lookup_in _ _ _ N J).
  apply (class_passes e H uncompress load t s base R HH); [|exact V].
  destruct CP as [Q|[Q|[]]]; injection Q as <- <-; [now apply pair_mainnet with name|now apply pair_minimal with name].
Qed.
Lemma content_file l name b : NoDup (map fst l) -> (content_of name l = Some b <-> has_file l name b).
Proof.
  intros N. split; [|apply has_file_content]. intros C. split; [exact N|]. unfold content_of in C.
  assert (L : forall x, lookup name l = Some x -> In (name, x) l).
  { clear C N. induction l as [|[n y] l IH]; cbn [lookup]; intros x E; [discriminate|]. destruct (String.eqb_spec n name) as [->|_].
    - left. congruence.
    - right. auto. }
  destruct (lookup name l) as [[c|d]|]; try discriminate. apply L. congruence.
Qed.
Lemma no_roots e HB t des uncompress value content : test_ssz e HB t des uncompress value (YScalar []) content <> Ok (true, true, true).
Proof.
  unfold test_ssz. destruct (as_T (yvt e t) value) as [v| |]; cbn [bind]; try discriminate.
  destruct (hash_tree_root HB t v) as [r| |]; cbn [bind]; discriminate.
Qed.
Lemma no_content e HB t des value roots content : test_ssz e HB t des (fun _ => None) value roots content <> Ok (true, true, true).
Proof.
  unfold test_ssz. destruct (as_T (yvt e t) value) as [v| |]; cbn [bind]; try discriminate.
  destruct (hash_tree_root HB t v) as [r| |]; cbn [bind]; try discriminate.
  destruct (yget roots "root") as [n| |]; cbn [bind]; try discriminate.
  destruct (as_T (yvt e (TBytes 32)) n); cbn [bind]; discriminate.
Qed.
Lemma vector_exact e HB des uncompress load t l : NoDup (map fst l) ->
  (test_vector e HB des uncompress load t l = Ok (true, true, true) <->
   exists b1 value b2 roots b3, has_file l "value.yaml" b1 /\ load b1 = Some value /\
     has_file l "roots.yaml" b2 /\ load b2 = Some roots /\ has_file l "serialized.ssz_snappy" b3 /\
     test_ssz e HB t (des t) uncompress value roots b3 = Ok (true, true, true)).
Proof.
  intros N. unfold test_vector. split.
  - destruct (content_of "value.yaml" l) as [b1|] eqn:C1; [|discriminate]. destruct (load b1) as [value|] eqn:L1; [|discriminate].
    destruct (content_of "roots.yaml" l) as [b2|] eqn:C2; [|intros E; destruct (no_roots _ _ _ _ _ _ _ E)].
    destruct (load b2) as [roots|] eqn:L2; [|intros E; destruct (no_roots _ _ _ _ _ _ _ E)].
    destruct (content_of "serialized.ssz_snappy" l) as [b3|] eqn:C3; [|intros E; destruct (no_content _ _ _ _ _ _ _ E)].
    intros E. exists b1, value, b2, roots, b3. apply content_file in C1, C2, C3; try exact N.
    split; [exact C1|]. split; [exact L1|]. split; [exact C2|]. split; [exact L2|]. split; [exact C3|exact E].
  - intros (b1 & value & b2 & roots & b3 & C1 & L1 & C2 & L2 & C3 & E).
    now rewrite (has_file_content _ _ _ C1), (has_file_content _ _ _ C2), (has_file_content _ _ _ C3), L1, L2.
Qed.
