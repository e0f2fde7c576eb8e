(** * Model of the [heap_size] functions.

    Sizes are in bytes. Vectors count the elements in use, not the capacity, as the code does.
    [size_of] is 8 for [u64], [usize] and [i64], 4 for [u32], 2 for [u16] and 1 for [u8] (a 64-bit
    target). *)
From Verif Require Import Base BitVecModel RsVecModel EFModel SparseModel RmqModel WaveletModel BpModel.

(** bit_vec/mod.rs 1441-1443 *)
Definition bv_heap_size (bv : bitvec) : N := lenN (bdata bv) * 8.
(** bit_vec/fast_rs_vec/mod.rs 500-505: [BlockDescriptor] is a [u16], [SuperBlockDescriptor] a
    [usize], [SelectSuperBlockDescriptor] two [usize]. *)
Definition rs_heap_size (rs : rsvec) : N :=
  lenN (rdata rs) * 8 + lenN (rblocks rs) * 2 + lenN (rsupers rs) * 8 + lenN (rsel rs) * 16.
(** elias_fano/mod.rs 607-609 *)
Definition ef_heap_size (e : ef) : N := rs_heap_size (ef_upper e) + bv_heap_size (ef_lower e).
(** bit_vec/sparse.rs 239-241 *)
Definition sp_heap_size (s : sparse) : N := ef_heap_size (sp_vec s).
(** rmq/binary_rmq/mod.rs 165-167 *)
Definition br_heap_size (r : brmq) : N := lenN (br_data r) * 8 + lenN (br_results r) * 4.
(** rmq/fast_rmq/mod.rs 287-292: a [Block] is two [u128]. *)
Definition fr_heap_size (r : frmq) : N :=
  lenN (fr_data r) * 8 + br_heap_size (fr_minima r) + lenN (fr_indices r) + lenN (fr_blocks r) * 32.
(** wavelet/mod.rs 2060-2062 *)
Definition wm_heap_size (w : wavelet) : N := sumN (map rs_heap_size w).
(** trees/mmt.rs 440-442: an [ExcessNode] is three [i64]; trees/bp/mod.rs 541-543 *)
Definition mmt_heap_size (nodes : list enode) : N := lenN nodes * 24.
Definition bp_heap_size (t : bptree) : N := rs_heap_size (bp_vec t) + mmt_heap_size (bp_mmt t).
