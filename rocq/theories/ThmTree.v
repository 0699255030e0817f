(** Hash tree properties (C11-C18). [H] is the compression function, arbitrary;
    with the assembly routines it is SHA-256 (ThmSha). *)
From Coq Require Import ZArith String List Bool.
From Verif Require Import Base SpecSSZ SpecTree SpecPhase0 ModelMath ModelHashTree ModelSSZ ModelTree ModelEth
  SpecObj SpecClasses Samples LemMatch LemCheck LemRoot LemOver LemOverBind LemThmTree LemSpare LemBreadth.
Import ListNotations.
Open Scope string_scope.
Open Scope list_scope.
Open Scope Z_scope.

(** A toy compression function for the examples. *)
Definition toy (x : list Z) : list Z :=
  map (fun p : Z * Z => (3 * fst p + 5 * snd p + 1) mod 256) (combine (firstn 32 x) (skipn 32 x)).

(** ** C11 *)
Theorem C11_root : forall H t s v,
  container_pair t s -> has_type s v ->
  hash_tree_root (hash_pairs H) t v = Ok (ssz_hash_tree_root H s v).
Proof. exact root_containers. Qed.
Print Assumptions C11_root.
(** Also for every other class (lists, vectors, leaves on their own). *)
Theorem C11_root_any : forall H t s v,
  wf t = true -> hashable t = true -> matches t s = true -> has_type s v ->
  hash_tree_root (hash_pairs H) t v = Ok (ssz_hash_tree_root H s v).
Proof. exact root_any. Qed.
Print Assumptions C11_root_any.
Example C11_case :
  wt (tBeaconBlockBody mainnet) smp_body /\ within (tBeaconBlockBody mainnet) smp_body /\
  (exists r, hash_tree_root (hash_pairs toy) (tBeaconBlockBody mainnet) smp_body = Ok r /\ nth 0 r 0 = 240) /\
  hash_tree_root (hash_pairs toy) (tBeaconBlockBody mainnet) smp_body
  <> hash_tree_root (hash_pairs toy) (tBeaconBlockBody mainnet) (default (tBeaconBlockBody mainnet)).
Proof.
  split; [apply wtb_wt; reflexivity|]. split; [apply withinb_within; reflexivity|].
  split; [eexists; split; [vm_compute; reflexivity|vm_compute; reflexivity]|].
  vm_compute. discriminate.
Qed.

(** ** C12: every read, write and iterator step of the model is bounds-checked
    and overlapping hash calls are UB, so [Ok] says there was none. *)
Theorem C12_safe : forall H chunks limit,
  1 <= zlen chunks ->
  (limit = 0 /\ zlen chunks <= 2 ^ 42) \/ (zlen chunks <= limit <= 2 ^ 42) ->
  exists tree, HashTree (hash_pairs H) chunks limit = Ok tree.
Proof. exact tree_safe. Qed.
Print Assumptions C12_safe.
(** The bound 2^42 is needed: with limit 2^43 the zero-hash table is overrun;
    and so is the condition on the limit. *)
Example C12_case :
  (exists tree, HashTree (hash_pairs toy) (repeat zero_chunk 5) (2 ^ 42) = Ok tree /\ length tree = 45%nat) /\
  HashTree (hash_pairs toy) (repeat zero_chunk 5) (2 ^ 43) = UB /\
  HashTree (hash_pairs toy) (repeat zero_chunk 5) 4 = Ok (firstn 6 (match HashTree (hash_pairs toy) (repeat zero_chunk 5) 8 with Ok t => t | _ => [] end)) /\
  HashTree (hash_pairs toy) (repeat zero_chunk 3) 2 = UB /\ HashTree (hash_pairs toy) (repeat zero_chunk 8) 4 = UB /\
  HashTree (hash_pairs toy) [] 4 = Throw.
Proof.
  split; [eexists; split; vm_compute; reflexivity|].
  repeat split; vm_compute; reflexivity.
Qed.
(** More chunks than the limit: exactly when the buffer is too small, and what the
    tree is when it is not. *)
Theorem C12_exact : forall H chunks limit,
  1 <= zlen chunks <= 2 ^ 42 -> 1 <= limit <= 2 ^ 42 ->
  if tree_fits (zlen chunks) limit
  then exists tree, HashTree (hash_pairs H) chunks limit = Ok tree /\
         back tree = Ok (merkle_root H chunks (Z.max limit (zlen chunks)))
  else HashTree (hash_pairs H) chunks limit = UB.
Proof. exact HashTree_exact. Qed.
Print Assumptions C12_exact.
(** Between the limit, rounded up to a power of two, and twice that, it is too
    small for the two largest numbers of chunks only. *)
Theorem C12_doubling : forall H chunks limit d,
  1 <= d < 42 -> Z.log2_up limit = d -> 1 <= limit ->
  2 ^ d < zlen chunks <= 2 ^ (d + 1) ->
  (HashTree (hash_pairs H) chunks limit = UB <-> 2 ^ (d + 1) - 2 < zlen chunks).
Proof. exact tree_doubling. Qed.
Print Assumptions C12_doubling.
Example C12_exact_case :
  map (fun n => tree_fits n 2) [1; 2; 3; 4; 5; 8; 9; 12; 13; 16; 17] =
    [true; true; false; false; false; false; true; true; false; false; true] /\
  Z.log2_up 100 = 7 /\ tree_fits 254 100 = true /\ tree_fits 255 100 = false /\
  HashTree (hash_pairs toy) (repeat zero_chunk 15) 6 = UB /\
  exists tree, HashTree (hash_pairs toy) (repeat zero_chunk 14) 6 = Ok tree.
Proof. repeat split; try (vm_compute; reflexivity). eexists. vm_compute. reflexivity. Qed.

(** The number of nodes. It is at most what ssz/hashtree.cpp:116 sets aside. The node that
    line 118 adds for trees deeper than their chunks need is therefore not written while the
    tree is built; it is left for the [push_back] of [mix_in], as the comment there says. *)
Theorem C12_size : forall H chunks limit tree,
  1 <= zlen chunks -> zlen chunks <= limit <= 2 ^ 42 -> 2 <= limit ->
  HashTree (hash_pairs H) chunks limit = Ok tree ->
  zlen tree <= Z.log2_up limit - Z.log2_up (zlen chunks) + 2 ^ Z.log2_up (zlen chunks) - 1.
Proof. exact tree_size. Qed.
Print Assumptions C12_size.
(** The bound is attained. *)
Example C12_size_case : exists tree,
  HashTree (hash_pairs toy) (repeat zero_chunk 4) 32 = Ok tree /\
  zlen tree = Z.log2_up 32 - Z.log2_up 4 + 2 ^ Z.log2_up 4 - 1.
Proof. eexists. split; vm_compute; reflexivity. Qed.

(** ** C13. Full claim: an accepted input gives an object whose hash_tree_root()
    is safe. False: three attester slashings (limit 2) are accepted, and hashing
    the object writes past the tree buffer, whatever the hash. *)
Theorem C13_refuted :
  exists b v, is_container (tBeaconBlockBody mainnet) /\ bytes_ok b /\
    deserialize (tBeaconBlockBody mainnet) (default (tBeaconBlockBody mainnet)) b = Ok (true, v) /\
    forall H, hash_tree_root (hash_pairs H) (tBeaconBlockBody mainnet) v = UB.
Proof.
  exists (serialize (tBeaconBlockBody mainnet) over_body), over_body.
  split; [apply cont_mainnet with "BeaconBlockBody"; cbn; tauto|].
  split; [apply bytes_okb_ok; vm_compute; reflexivity|].
  split; [vm_compute; reflexivity|]. intros H. vm_compute. reflexivity.
Qed.
Print Assumptions C13_refuted.
(** It holds for the values within their limits, and so for all the fixed-size
    containers. *)
Theorem C13_within_partial : forall H t v,
  is_container t -> wt t v -> within t v -> exists r, hash_tree_root (hash_pairs H) t v = Ok r.
Proof. exact root_ok_within. Qed.
Print Assumptions C13_within_partial.
Theorem C13_fixed_partial : forall H t old b v,
  is_container t -> get_ssz_size t <> 0 -> wt t old -> bytes_ok b ->
  deserialize t old b = Ok (true, v) -> exists r, hash_tree_root (hash_pairs H) t v = Ok r.
Proof. exact root_ok_fixed. Qed.
Print Assumptions C13_fixed_partial.
(** Exactly when it fails: hash_tree_root() of a value, whatever the sizes of its
    lists, is undefined iff some list needs more nodes than are set aside for it;
    otherwise it is the root for lists whose limits are raised to their sizes. *)
Theorem C13_exact_partial : forall H t s v,
  container_pair t s -> wt t v -> breadth v <= 2 ^ 42 ->
  hash_tree_root (hash_pairs H) t v = if trees_fit s v then Ok (lenient_root H s v) else UB.
Proof. exact root_beyond. Qed.
Print Assumptions C13_exact_partial.
Theorem C13_accepted_partial : forall H t s old b v,
  container_pair t s -> wt t old -> bytes_ok b ->
  deserialize t old b = Ok (true, v) -> breadth v <= 2 ^ 42 ->
  (hash_tree_root (hash_pairs H) t v = UB <-> trees_fit s v = false).
Proof. exact accepted_root. Qed.
Print Assumptions C13_accepted_partial.
(** The same in terms of the input only: no sequence in the object has more elements than
    the input has bits. *)
Theorem C13_longest : forall t s old b v,
  container_pair t s -> wt t old -> bytes_ok b -> deserialize t old b = Ok (true, v) -> breadth v <= 8 * zlen b.
Proof. exact accepted_breadth. Qed.
Print Assumptions C13_longest.
Theorem C13_input_partial : forall H t s old b v,
  container_pair t s -> wt t old -> bytes_ok b ->
  deserialize t old b = Ok (true, v) -> zlen b <= 2 ^ 39 ->
  hash_tree_root (hash_pairs H) t v = if trees_fit s v then Ok (lenient_root H s v) else UB.
Proof. exact accepted_root_exact. Qed.
Print Assumptions C13_input_partial.
(** The roots of values within their limits are those of the specification. *)
Theorem C13_raised_limits : forall H s v,
  has_type s v -> trees_fit s v = true /\ lenient_root H s v = ssz_hash_tree_root H s v.
Proof. exact lenient_within. Qed.
Print Assumptions C13_raised_limits.
(** A block body with 17 deposits (limit 16) has a root; with 3 attester slashings it has none. *)
Example C13_exact_case :
  let deposit := default tDeposit in
  let body l := VSeq [fill 96 8; smp_eth1; fill 32 65; VSeq []; VSeq []; VSeq []; VSeq l; VSeq []] in
  let s := sBeaconBlockBody in
  wt (tBeaconBlockBody mainnet) (body (repeat deposit 17)) /\ ~ has_type s (body (repeat deposit 17)) /\
  trees_fit s (body (repeat deposit 17)) = true /\ trees_fit s (body (repeat deposit 31)) = false /\
  breadth (body (repeat deposit 17)) = 96 /\ trees_fit s over_body = false.
Proof.
  intros deposit body s. split; [apply wtb_wt; vm_compute; reflexivity|].
  split; [intros (_ & _ & _ & _ & _ & _ & [Hv _] & _); vm_compute in Hv; now apply Hv|].
  split; [vm_compute; reflexivity|]. split; [vm_compute; reflexivity|]. split; vm_compute; reflexivity.
Qed.
Example C13_case :
  length (filter (fun c => negb (get_ssz_size (snd c) =? 0)) (all_classes mainnet)) = 15%nat /\
  deserialize tFork (default tFork) (serialize tFork smp_fork) = Ok (true, smp_fork).
Proof. split; reflexivity. Qed.

(** ** C14 *)
Theorem C14_binding : forall H,
  (forall x, zlen x = 64 -> zlen (H x) = 32) ->
  forall t v w, is_container t -> wt t v -> within t v -> wt t w -> within t w ->
  hash_tree_root (hash_pairs H) t v = hash_tree_root (hash_pairs H) t w ->
  v = w \/ exists x y, zlen x = 64 /\ zlen y = 64 /\ x <> y /\ H x = H y.
Proof. exact binding. Qed.
Print Assumptions C14_binding.
(** ... and with lists beyond their limits, as long as there are roots. *)
Theorem C14_beyond : forall H,
  (forall x, zlen x = 64 -> zlen (H x) = 32) ->
  forall t v w r, is_container t -> wt t v -> wt t w -> breadth v <= 2 ^ 42 -> breadth w <= 2 ^ 42 ->
  hash_tree_root (hash_pairs H) t v = Ok r -> hash_tree_root (hash_pairs H) t w = Ok r ->
  v = w \/ exists x y, zlen x = 64 /\ zlen y = 64 /\ x <> y /\ H x = H y.
Proof. exact binding_beyond. Qed.
Print Assumptions C14_beyond.
(** Bitlists [1] and [1;0] have the same packed bytes; only the length tells them apart. *)
Example C14_case :
  let a bits := VSeq [VBits bits; smp_att_data 1 2; fill 96 9] in
  (forall bits, wt (tAttestation mainnet) (a bits)) /\ within (tAttestation mainnet) (a [true; false]) /\
  hash_tree_root (hash_pairs toy) (tAttestation mainnet) (a [true]) <> hash_tree_root (hash_pairs toy) (tAttestation mainnet) (a [true; false]).
Proof.
  intros a. split; [|split; [apply withinb_within; reflexivity|vm_compute; discriminate]].
  intros bits. cbn [wt tAttestation all2 a]. split; [exact I|].
  split; [exact (wtb_wt tAttestationData (smp_att_data 1 2) eq_refl)|].
  split; [exact (wtb_wt (TBytes 96) (fill 96 9) eq_refl)|exact I].
Qed.

(** ** C15: the tree is the list of its layers from the one above the chunks to
    the root (the chunks themselves when the tree is a single leaf). *)
Theorem C15_layout : forall H chunks limit,
  1 <= zlen chunks ->
  (limit = 0 /\ zlen chunks <= 2 ^ 42) \/ (zlen chunks <= limit <= 2 ^ 42) ->
  let L := if limit =? 0 then zlen chunks else limit in
  let depth := Z.to_nat (Z.log2_up L) in
  exists tree, HashTree (hash_pairs H) chunks limit = Ok tree /\
    tree = (if L =? 1 then chunks else concat (map (tree_layer H chunks) (seq 1 depth))) /\
    back tree = Ok (merkle_root H chunks L).
Proof. exact tree_layout. Qed.
Print Assumptions C15_layout.
Example C15_case : map (fun k => length (tree_layer toy (repeat zero_chunk 5) k)) (seq 1 4) = [3; 2; 1; 1]%nat.
Proof. vm_compute. reflexivity. Qed.

(** ** C16 *)
Theorem C16_zero_table : forall H k, (k < 42)%nat -> nth_error (zero_hash_array (hash_pairs H)) k = Some (zero_root H k).
Proof. exact zero_table. Qed.
Print Assumptions C16_zero_table.
Theorem C16_size : forall H, length (zero_hash_array (hash_pairs H)) = 42%nat.
Proof. exact zero_table_length. Qed.
Print Assumptions C16_size.
Example C16_case : nth 0 (nth 2 (zero_hash_array (hash_pairs toy)) []) 0 = 9.
Proof. vm_compute. reflexivity. Qed.

(** ** C17 *)
Theorem C17_mix_in : forall H tree root len, back tree = Ok root ->
  mix_in (hash_pairs H) tree len = Ok (tree ++ [H (root ++ le_bytes 32 len)]) /\
  back (tree ++ [H (root ++ le_bytes 32 len)]) = Ok (H (root ++ le_bytes 32 len)).
Proof. exact mixin. Qed.
Print Assumptions C17_mix_in.
Example C17_case :
  back [repeat 1 32; repeat 2 32] = Ok (repeat 2 32) /\
  mix_in (hash_pairs toy) [repeat 1 32; repeat 2 32] 258
  = Ok [repeat 1 32; repeat 2 32; [17; 12] ++ repeat 7 30] /\ mix_in (hash_pairs toy) [] 1 = UB.
Proof. repeat split; vm_compute; reflexivity. Qed.

(** ** C18 *)
Theorem C18_packing : forall l,
  zlen (pack_and_pad l) = Z.max 1 ((zlen l + 31) / 32) /\
  Forall (fun c => zlen c = 32) (pack_and_pad l) /\
  exists k, concat (pack_and_pad l) = l ++ repeat 0 k.
Proof. exact pack_props. Qed.
Print Assumptions C18_packing.
Example C18_case : pack_and_pad (repeat 7 33) = [repeat 7 32; 7 :: repeat 0 31] /\ pack_and_pad [] = [repeat 0 32].
Proof. split; reflexivity. Qed.
