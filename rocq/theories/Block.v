(** The block-based compressors sz_compress_2d, sz_compress_2d_with_eb, sz_compress_3d and their decompressors
    (src/sz_compress_3d.cpp, src/sz_decompress_3d.cpp, include/sz_compress_block_processing.hpp,
    include/sz_decompress_block_processing.hpp).
    Sizes are unbounded integers (size_t/int overflow is not modelled); grids have at least one point.
    The regression coefficients and the choice between the two predictors (compute_regression_coeffcients_2d/_3d,
    sz_blockwise_selection_2d/_3d), the mean and the capacity (optimize_quant_invl_3d) are arguments of the model: every
    theorem holds whatever these functions compute. *)
From Coq Require Import List ZArith Bool.
From Verif Require Import Base Huffman HuffStream BitPack Stream Arith LinQuant.
Import ListNotations.
Local Open Scope Z_scope.

(** ** Geometry of the block traversal *)

(** include/sz_def.hpp:103-104,128-130: number of blocks along a dimension. *)
Definition num_blocks (d bs : Z) : Z := (d - 1) / bs + 1.

(** src/sz_compress_3d.cpp:40-41,278-280: extent of the i-th block along a dimension of length d. *)
Definition block_extent (d bs i : Z) : Z := if (i + 1) * bs <? d then bs else d - i * bs.

(** One value of a block (include/sz_compress_block_processing.hpp:34-44): its index in the data array, its index in the prediction buffer, its coordinates in the
    block. *)
Record site := { s_at : Z; s_buf : Z; s_crd : list Z }.

(** A step of the traversal: a block, or the copy of the last buffer plane to the first one (src/sz_compress_3d.cpp:62-64, 70). *)
Inductive act :=
| Block (sites : list site)
| Shift (src len : Z).

(** Running position: for(k...) use pos, pos += step(k); src/sz_compress_3d.cpp:66-67,71, src/sz_decompress_3d.cpp:34-35,39. *)
Fixpoint running (step : Z -> Z) (pos : Z) (ks : list Z) : list (Z * Z) :=
  match ks with
  | [] => []
  | k :: ks' => (k, pos) :: running step (pos + step k) ks'
  end.

(** include/sz_compress_block_processing.hpp:32-44,83-101 (2D): the points of a block at data position [dp] and
    buffer position [bp], in order.  The pointer increments (cur_data_pos += dim0_offset - size_y) are summed up. *)
Definition sites2 (d2 dp bp sx sy : Z) : list site :=
  let b0 := d2 + 1 in
  flat_map (fun x => map (fun y => {| s_at := dp + x * d2 + y; s_buf := bp + b0 + 1 + x * b0 + y; s_crd := [x; y] |})
                         (zrange 0 sy)) (zrange 0 sx).

(** src/sz_compress_3d.cpp:35-72,150-189: the blocks of the compressor, row by row. *)
Definition acts2_enc (d1 d2 bs : Z) : list act :=
  flat_map (fun '(i, x_pos) =>
      map (fun '(j, off) => Block (sites2 d2 (x_pos + off) off (block_extent d1 bs i) (block_extent d2 bs j)))
          (running (fun _ => bs) 0 (zrange 0 (num_blocks d2 bs)))
      ++ [Shift (bs * (d2 + 1)) (d2 + 1)])
    (running (fun _ => bs * d2) 0 (zrange 0 (num_blocks d1 bs))).

(** src/sz_decompress_3d.cpp:16-40,94-119: the blocks of the decompressor; the positions advance by size_y. *)
Definition acts2_dec (d1 d2 bs : Z) : list act :=
  flat_map (fun '(i, x_pos) =>
      map (fun '(j, off) => Block (sites2 d2 (x_pos + off) off (block_extent d1 bs i) (block_extent d2 bs j)))
          (running (block_extent d2 bs) 0 (zrange 0 (num_blocks d2 bs)))
      ++ [Shift (bs * (d2 + 1)) (d2 + 1)])
    (running (fun _ => bs * d2) 0 (zrange 0 (num_blocks d1 bs))).

(** include/sz_compress_block_processing.hpp:171-181,192-206,217-237 (3D). *)
Definition sites3 (d2 d3 b0 b1 dp bp sx sy sz : Z) : list site :=
  flat_map (fun x =>
    flat_map (fun y =>
      map (fun z => {| s_at := dp + x * (d2 * d3) + y * d3 + z;
                       s_buf := bp + b0 + b1 + 1 + x * b0 + y * b1 + z; s_crd := [x; y; z] |})
          (zrange 0 sz)) (zrange 0 sy)) (zrange 0 sx).

(** src/sz_compress_3d.cpp:344-388 and src/sz_decompress_3d.cpp:219-249: with border prediction.  The buffer
    position after row j of blocks is bs*buffer_dim1_offset further (the bs*num_z added in the row is taken back). *)
Definition acts3_border (d1 d2 d3 bs : Z) : list act :=
  let b0 := (d2 + 1) * (d3 + 1) in
  let b1 := d3 + 1 in
  flat_map (fun '(i, x_pos) =>
      flat_map (fun '((j, y_off), (_, b_off)) =>
          map (fun '((k, z_off), (_, bz_off)) =>
                 Block (sites3 d2 d3 b0 b1 (x_pos + y_off + z_off) (b_off + bz_off)
                               (block_extent d1 bs i) (block_extent d2 bs j) (block_extent d3 bs k)))
              (combine (running (block_extent d3 bs) 0 (zrange 0 (num_blocks d3 bs)))
                       (running (fun _ => bs) 0 (zrange 0 (num_blocks d3 bs)))))
        (combine (running (fun _ => bs * d3) 0 (zrange 0 (num_blocks d2 bs)))
                 (running (fun _ => bs * num_blocks d3 bs + (bs * b1 - bs * num_blocks d3 bs)) 0
                          (zrange 0 (num_blocks d2 bs))))
      ++ [Shift (bs * b0) b0])
    (running (fun _ => bs * (d2 * d3)) 0 (zrange 0 (num_blocks d1 bs))).

(** src/sz_compress_3d.cpp:272-311 and src/sz_decompress_3d.cpp:176-202: block-independent; one buffer of
    (bs+1)^3 values used by every block, never cleared. *)
Definition acts3_indep (d1 d2 d3 bs : Z) : list act :=
  let b1 := bs + 1 in
  let b0 := b1 * b1 in
  flat_map (fun '(i, x_pos) =>
      flat_map (fun '(j, y_off) =>
          map (fun '(k, z_off) =>
                 Block (sites3 d2 d3 b0 b1 (x_pos + y_off + z_off) 0
                               (block_extent d1 bs i) (block_extent d2 bs j) (block_extent d3 bs k)))
              (running (block_extent d3 bs) 0 (zrange 0 (num_blocks d3 bs))))
        (running (fun _ => bs * d3) 0 (zrange 0 (num_blocks d2 bs))))
    (running (fun _ => bs * (d2 * d3)) 0 (zrange 0 (num_blocks d1 bs))).

Section Codec.
Context (A : Arith) (O : FOps A).
Notation T := (T A).
Notation D := (D A).

(** include/sz_prediction.hpp:4-8 regression_predict_2d and 16-20 regression_predict_3d: a float sum converted to T;
    the caller converts it back to float. *)
Definition regression_predict (coef : list (F O)) (crd : list Z) : option T :=
  match coef, crd with
  | [a; b; c], [x; y] =>
      Some (f2t O (fadd O (fadd O (fmul O a (fofZ O x)) (fmul O b (fofZ O y))) c))
  | [a; b; c; d], [x; y; z] =>
      Some (f2t O (fadd O (fadd O (fadd O (fmul O a (fofZ O x)) (fmul O b (fofZ O y))) (fmul O c (fofZ O z))) d))
  | _, _ => None
  end.

(** include/sz_prediction.hpp:10-14 lorenzo_predict_2d at buffer position p. *)
Definition lorenzo_predict2 (off : Z) (buf : list T) (p : Z) : option T :=
  let* a := aget buf (p - 1) in
  let* b := aget buf (p - off) in
  let* c := aget buf (p - off - 1) in
  Some (tsub A (tadd A a b) c).

(** include/sz_prediction.hpp:22-28 lorenzo_predict_3d. *)
Definition lorenzo_predict3 (off0 off1 : Z) (buf : list T) (p : Z) : option T :=
  let* a := aget buf (p - 1) in
  let* b := aget buf (p - off1) in
  let* c := aget buf (p - off0) in
  let* d := aget buf (p - off1 - 1) in
  let* e := aget buf (p - off0 - 1) in
  let* f := aget buf (p - off0 - off1) in
  let* g := aget buf (p - off0 - off1 - 1) in
  Some (tadd A (tsub A (tsub A (tsub A (tadd A (tadd A a b) c) d) e) f) g).

(** What the block functions of one compressor have in common (their arguments: include/sz_compress_block_processing.hpp:29-31,80-82,106-108,
    168-169,187-189,212-214). *)
Record cfg := {
  g_lor : list T -> Z -> option T;        (* Lorenzo predictor on the buffer *)
  g_wide : bool;                          (* regression blocks update the buffer (.._with_buffer) *)
  g_capacity : Z;
  g_radius : Z;
  g_mean : option T;                      (* Some mean when mean_info.use_mean *)
  g_zero : bool;                          (* the .._with_eb variants: precision == 0 is stored verbatim *)
}.

(** What the compressor emits (src/sz_compress_3d.cpp:88-94): predictor flags, symbols, verbatim values, coefficient symbols and verbatim
    coefficients. *)
Record bcode := {
  b_ind : list Z; b_type : list Z; b_unp : list T; b_rtype : list Z; b_runp : list (F O)
}.
Definition bcode_nil : bcode := {| b_ind := []; b_type := []; b_unp := []; b_rtype := []; b_runp := [] |}.
Definition bcode_app (a b : bcode) : bcode :=
  {| b_ind := b_ind a ++ b_ind b; b_type := b_type a ++ b_type b; b_unp := b_unp a ++ b_unp b;
     b_rtype := b_rtype a ++ b_rtype b; b_runp := b_runp a ++ b_runp b |}.

(** mean_info.use_mean ? capacity - 2 : capacity (src/sz_compress_3d.cpp:34). *)
Definition capacity_lorenzo (g : cfg) : Z :=
  match g_mean g with Some _ => g_capacity g - 2 | None => g_capacity g end.

(** The mean test of include/sz_compress_block_processing.hpp:88-90: the mean when it is used for this value. *)
Definition near_mean (g : cfg) (cur : T) (p : D) : option T :=
  match g_mean g with
  | Some m => if dlt A (t2d A (tabs A (tsub A cur m))) p then Some m else None
  | None => None
  end.

(** include/sz_compress_block_processing.hpp:37-38,57-67,88-95,114-130,174-175,196-197,221-228: one value in a block that uses regression
    ([Some coef]) or Lorenzo ([None]).  Result: new buffer, symbol, verbatim values appended. *)
Definition enc_site (g : cfg) (prec : Z -> option D) (data : list T) (rg : option (list (F O))) (buf : list T) (s : site)
  : option (list T * Z * list T) :=
  let* cur := aget data (s_at s) in
  let* p := prec (s_at s) in
  if g_zero g && deq A p (dofZ A 0) then
    let* buf' := aset buf (s_buf s) cur in Some (buf', 0, [cur])
  else
    match rg with
    | None =>
        match near_mean g cur p with
        | Some m => let* buf' := aset buf (s_buf s) m in Some (buf', 1, [])
        | None =>
            let* l := g_lor g buf (s_buf s) in
            let* r := lin_quantize (qT A O) (t2f O l) cur p (capacity_lorenzo g) (g_radius g) in
            let '(q, x, u) := quant_out cur r in
            let* buf' := aset buf (s_buf s) x in Some (buf', q, u)
        end
    | Some coef =>
        let* l := regression_predict coef (s_crd s) in
        let* r := lin_quantize (qT A O) (t2f O l) cur p (g_capacity g) (g_radius g) in
        let '(q, x, u) := quant_out cur r in
        if g_wide g then let* buf' := aset buf (s_buf s) x in Some (buf', q, u) else Some (buf, q, u)
    end.

(** include/sz_compress_block_processing.hpp:34-44,54-75,85-101,111-138,171-181,192-206,217-237: the loops over one block. *)
Fixpoint enc_sites (g : cfg) (prec : Z -> option D) (data : list T) (rg : option (list (F O))) (ss : list site)
         (buf : list T) : option (list T * list Z * list T) :=
  match ss with
  | [] => Some (buf, [], [])
  | s :: ss' =>
      let* (b1, q, u) := enc_site g prec data rg buf s in
      let* (b2, qs, us) := enc_sites g prec data rg ss' b1 in
      Some (b2, q :: qs, u ++ us)
  end.

(** include/sz_compression_utils.hpp:83-99 compress_regression_coefficient_2d/_3d: coefficient k is quantised against
    the same coefficient of the previous regression block (RegCoeffCapacity 65536, RegCoeffRadius 32768). *)
Fixpoint enc_coefs (precs : list D) (prev raw : list (F O)) : option (list (F O) * list Z * list (F O)) :=
  match precs, prev, raw with
  | [], [], [] => Some ([], [], [])
  | p :: precs', a :: prev', c :: raw' =>
      let* r := lin_quantize (qF A O) a c p 65536 32768 in
      let '(q, x, u) := quant_out c r in
      let* (xs, qs, us) := enc_coefs precs' prev' raw' in
      Some (x :: xs, q :: qs, u ++ us)
  | _, _, _ => None
  end.

(** memcpy(buffer, buffer + src, len): src/sz_compress_3d.cpp:70,187,386, src/sz_decompress_3d.cpp:38,117,247. *)
Definition shift_buf (src len : Z) (buf : list T) : option (list T) :=
  check* (0 <=? src) && (0 <=? len) && (src + len <=? Z.of_nat (length buf)) && (len <=? src) in
  Some (firstn (Z.to_nat len) (skipn (Z.to_nat src) buf) ++ skipn (Z.to_nat len) buf).

(** src/sz_compress_3d.cpp:35-72,150-189,272-311,344-388: the traversal.  [plan] lists, block after block, [None] for Lorenzo or the raw
    regression coefficients; [prev] are the coefficients of the last regression block. *)
Fixpoint enc_acts (g : cfg) (prec : Z -> option D) (precs : list D) (data : list T) (acts : list act)
         (plan : list (option (list (F O)))) (buf : list T) (prev : list (F O)) : option bcode :=
  match acts with
  | [] => Some bcode_nil
  | Shift src len :: acts' =>
      let* buf' := shift_buf src len buf in enc_acts g prec precs data acts' plan buf' prev
  | Block ss :: acts' =>
      match plan with
      | [] => None
      | None :: plan' =>
          let* (b1, qs, us) := enc_sites g prec data None ss buf in
          let* c := enc_acts g prec precs data acts' plan' b1 prev in
          Some (bcode_app {| b_ind := [0]; b_type := qs; b_unp := us; b_rtype := []; b_runp := [] |} c)
      | Some raw :: plan' =>
          let* (coef, rq, ru) := enc_coefs precs prev raw in
          let* (b1, qs, us) := enc_sites g prec data (Some coef) ss buf in
          let* c := enc_acts g prec precs data acts' plan' b1 coef in
          Some (bcode_app {| b_ind := [1]; b_type := qs; b_unp := us; b_rtype := rq; b_runp := ru |} c)
      end
  end.

(** ** Decompressor *)

(** include/sz_decompress_block_processing.hpp:13-16,33-36,52-57,75-80,97-98,117-120,142-145: one value.  [out] is the
    malloc'ed result array.  Result: buffer, output, symbols left, verbatim values left. *)
Definition dec_site (g : cfg) (prec : Z -> option D) (rg : option (list (F O))) (s : site)
           (buf : list T) (out : list (option T)) (ts : list Z) (us : list T)
  : option (list T * list (option T) * list Z * list T) :=
  let* p := prec (s_at s) in
  match ts with
  | [] => None
  | t :: ts' =>
      match rg with
      | None =>
          let* l := g_lor g buf (s_buf s) in
          let* (x, us') := recover (qT A O) (g_mean g) (t2f O l) p t (g_radius g) us in
          let* out' := aset out (s_at s) (Some x) in
          let* buf' := aset buf (s_buf s) x in
          Some (buf', out', ts', us')
      | Some coef =>
          let* l := regression_predict coef (s_crd s) in
          let* (x, us') := recover (qT A O) None (t2f O l) p t (g_radius g) us in
          let* out' := aset out (s_at s) (Some x) in
          if g_wide g then let* buf' := aset buf (s_buf s) x in Some (buf', out', ts', us')
          else Some (buf, out', ts', us')
      end
  end.

(** include/sz_decompress_block_processing.hpp:10-20,30-40,49-62,72-85,94-103,113-127,138-152: the loops over one block. *)
Fixpoint dec_sites (g : cfg) (prec : Z -> option D) (rg : option (list (F O))) (ss : list site)
         (buf : list T) (out : list (option T)) (ts : list Z) (us : list T)
  : option (list T * list (option T) * list Z * list T) :=
  match ss with
  | [] => Some (buf, out, ts, us)
  | s :: ss' =>
      let* (b1, o1, t1, u1) := dec_site g prec rg s buf out ts us in
      dec_sites g prec rg ss' b1 o1 t1 u1
  end.

(** src/sz_decompression_utils.cpp:21-26,49-54: the coefficients of one regression block. *)
Fixpoint dec_coefs (precs : list D) (prev : list (F O)) (ts : list Z) (us : list (F O))
  : option (list (F O) * list Z * list (F O)) :=
  match precs, prev with
  | [], [] => Some ([], ts, us)
  | p :: precs', a :: prev' =>
      match ts with
      | [] => None
      | t :: ts' =>
          let* (x, us') := recover (qF A O) None a p t 32768 us in
          let* (xs, ts2, us2) := dec_coefs precs' prev' ts' us' in
          Some (x :: xs, ts2, us2)
      end
  | _, _ => None
  end.

(** src/sz_decompression_utils.cpp:3-29,31-57: the coefficients of all [n] regression blocks. *)
Fixpoint dec_coef_array (precs : list D) (n : nat) (prev : list (F O)) (ts : list Z) (us : list (F O))
  : option (list (list (F O))) :=
  match n with
  | 0%nat => Some []
  | S n' =>
      let* (x, ts', us') := dec_coefs precs prev ts us in
      let* xs := dec_coef_array precs n' x ts' us' in
      Some (x :: xs)
  end.

(** src/sz_decompress_3d.cpp:16-40,94-119,176-202,219-249. *)
Fixpoint dec_acts (g : cfg) (prec : Z -> option D) (acts : list act) (ind : list Z) (coefs : list (list (F O)))
         (buf : list T) (out : list (option T)) (ts : list Z) (us : list T) : option (list (option T)) :=
  match acts with
  | [] => Some out
  | Shift src len :: acts' =>
      let* buf' := shift_buf src len buf in dec_acts g prec acts' ind coefs buf' out ts us
  | Block ss :: acts' =>
      match ind with
      | [] => None
      | f :: ind' =>
          if f =? 0 then
            let* (b1, o1, t1, u1) := dec_sites g prec None ss buf out ts us in
            dec_acts g prec acts' ind' coefs b1 o1 t1 u1
          else
            match coefs with
            | [] => None
            | coef :: coefs' =>
                let* (b1, o1, t1, u1) := dec_sites g prec (Some coef) ss buf out ts us in
                dec_acts g prec acts' ind' coefs' b1 o1 t1 u1
            end
      end
  end.

(** ** Streams *)

(** src/sz_compress_3d.cpp:24-28, src/sz_decompression_utils.cpp:13-17: the bounds of the [k] regression coefficients
    (RegErrThreshold 0.1). *)
Definition coef_precisions (k : nat) (bs : Z) (precision : D) : list D :=
  let rel := d2f O (ddiv A (dmul A (dtenth O) precision) (dofZ A (Z.of_nat k))) in
  repeat (f2d O (fdiv O rel (fofZ O bs))) (k - 1) ++ [f2d O rel].

(** The float array written by write_array_to_dst (include/sz_compression_utils.hpp:42-47) and read back (src/sz_decompression_utils.cpp:7-8). *)
Definition fser_array (l : list (F O)) : list Z := flat_map (fser O) l.
Fixpoint fread_array (n : nat) (s : list Z) : option (list (F O) * list Z) :=
  match n with
  | 0%nat => Some ([], s)
  | S n' =>
      let* (b, s1) := take_bytes (fsize_of O) s in
      let* (l, s2) := fread_array n' s1 in
      Some (fdes O b :: l, s2)
  end.

(** struct meanInfo (include/sz_def.hpp:137-145): a bool, padding bytes of unspecified contents, the mean. *)
Definition mean_bytes (mean : option T) (pad : list Z) : list Z :=
  match mean with
  | Some m => 1 :: pad ++ tser A m
  | None => 0 :: pad ++ tser A (tofZ A 0)
  end.

(** src/sz_decompress_3d.cpp:58-59,135-136,267-268. *)
Definition read_mean (s : list Z) : option (option T * list Z) :=
  let* (b, s1) := take_bytes 1 s in
  let* (_, s2) := take_bytes (tsize_of A - 1) s1 in
  let* (m, s3) := take_bytes (tsize_of A) s2 in
  Some (match b with [0] => None | _ => Some (tdes A m) end, s3).

(** reg_count: the number of blocks coded by regression (src/sz_compress_3d.cpp:56,296,369). *)
Definition reg_count (c : bcode) : nat := count_occ Z.eq_dec (b_ind c) 1.

(** src/sz_compress_3d.cpp:102-112, 219-228, 418-428.  [prec]: the precision field of the variants that have one. *)
Definition block_pieces (bs : Z) (prec : option D) (indep : bool) (g : cfg) (pad : list Z) (c : bcode) : list piece :=
  [ Raw (le_bytes 4 bs) ] ++
  match prec with Some p => [ Raw (dser A p) ] | None => [] end ++
  [ Raw [if indep then 1 else 0];
    Raw (le_bytes 4 (g_radius g));
    Raw (mean_bytes (g_mean g) pad);
    Raw (le_bytes 8 (Z.of_nat (reg_count c)));
    Raw (le_bytes 8 (Z.of_nat (length (b_unp c))));                      (* unpredictable_count *)
    Raw (tser_array A (b_unp c));
    Raw (pack_flags (b_ind c)) ] ++
  (if (reg_count c =? 0)%nat then []
   else [ Raw (le_bytes 8 (Z.of_nat (length (b_runp c)))); Raw (fser_array (b_runp c)); Huff 131072 (b_rtype c) ]) ++
  [ Huff (2 * g_capacity g) (b_type c) ].

(** The parts of the stream after the mean (src/sz_decompress_3d.cpp:60-70, 137-148, 269-279), common to the three
    decompressors: flags, symbols, verbatim values, coefficients.  [usize] is what the decompressor takes for the size
    of a verbatim value when it skips them; the values themselves are read at their own size from the same place
    (lazily in the C++ code, here [count] of them at once). *)
Definition read_blocks (usize k nblocks n : nat) (precs : list D) (s : list Z)
  : option (list Z * list Z * list T * list (list (F O))) :=
  let* (rcount, s1) := read_le 8 s in
  let* (cnt, s2) := read_le 8 s1 in
  let* (unp, _) := tread_array A (Z.to_nat cnt) s2 in
  let* (_, s3) := take_bytes (Z.to_nat cnt * usize) s2 in
  check* (1 <=? nblocks)%nat in
  let* (ind, s4) := unpack_flags nblocks (sign_map_size nblocks) s3 in
  let* (coefs, s5) :=
    (if rcount =? 0 then Some ([], s4)
     else
       let* (rc, s41) := read_le 8 s4 in
       let* (ru, s42) := fread_array (Z.to_nat rc) s41 in
       let* (rt, s43) := huffman_decode_tree_and_data (k * Z.to_nat rcount) s42 in
       let* cs := dec_coef_array precs (Z.to_nat rcount) (repeat (fofZ O 0) k) rt ru in
       Some (cs, s43)) in
  let* (ts, _) := huffman_decode_tree_and_data n s5 in
  Some (ind, ts, unp, coefs).

(** est_size = num_elements*sizeof(T)*1.2 and the verbatim array of 0.05*num_elements values (src/sz_compress_3d.cpp:89,
    99,404,415), as exact fractions. *)
Definition est_size (n : Z) : Z := n * Z.of_nat (tsize_of A) * 6 / 5.
Definition unp_room (n : Z) : Z := n * Z.of_nat (tsize_of A) / 20.

(** src/sz_compress_3d.cpp:79-120 sz_compress_2d: capacity 32768, no mean, no precision check.  [junk] is the malloc'ed block. *)
Definition cfg2 (d2 : Z) (capacity radius : Z) (zero : bool) (mean : option T) : cfg :=
  {| g_lor := lorenzo_predict2 (d2 + 1); g_wide := true; g_capacity := capacity; g_radius := radius; g_mean := mean;
     g_zero := zero |}.

(** src/sz_compress_3d.cpp:11-76 prediction_and_quantization_2d_with_border_prediction. *)
Definition encode_2d (r1 r2 bs : Z) (precision : D) (plan : list (option (list (F O)))) (data : list T) : option bcode :=
  enc_acts (cfg2 r2 32768 16384 false None) (fun _ => Some precision) (coef_precisions 3 bs precision) data
           (acts2_enc r1 r2 bs) plan (repeat (t0 A) (Z.to_nat ((bs + 1) * (r2 + 1)))) (repeat (fofZ O 0) 3).

(** src/sz_compress_3d.cpp:79-120 sz_compress_2d; the decisions of the blocks are an argument here (see Plan.v). *)
Definition compress_2d ord ub (r1 r2 bs : Z) (indep : bool) (precision : D) (plan : list (option (list (F O))))
           (pad : list Z) (data : list T) (junk : list Z) : option (list Z * nat) :=
  check* (1 <=? r1) && (1 <=? r2) && (1 <=? bs) in
  let* c := encode_2d r1 r2 bs precision plan data in
  check* (Z.of_nat (length (b_unp c)) * Z.of_nat (tsize_of A) <=? unp_room (r1 * r2)) in
  check* (Z.of_nat (length junk) =? est_size (r1 * r2)) in
  write_pieces ord ub (block_pieces bs (Some precision) indep (cfg2 r2 32768 16384 false None) pad c) junk 0.

(** src/sz_decompress_3d.cpp:45-77 sz_decompress_2d. *)
Definition decompress_2d (r1 r2 : Z) (s : list Z) : option (list (option T)) :=
  let* (bs, s1) := read_s32 s in
  check* (1 <=? r1) && (1 <=? r2) && (1 <=? bs) in
  let* (pb, s2) := take_bytes 8 s1 in
  let precision := ddes A pb in
  let* (_, s3) := take_bytes 1 s2 in
  let* (radius, s4) := read_s32 s3 in
  let* (mean, s5) := read_mean s4 in
  let* (ind, ts, unp, coefs) :=
    read_blocks (fsize_of O) 3 (Z.to_nat (num_blocks r1 bs * num_blocks r2 bs)) (Z.to_nat (r1 * r2))
                (coef_precisions 3 bs precision) s5 in
  dec_acts (cfg2 r2 (2 * radius) radius false mean) (fun _ => Some precision) (acts2_dec r1 r2 bs) ind coefs
           (repeat (t0 A) (Z.to_nat ((bs + 1) * (r2 + 1)))) (repeat None (Z.to_nat (r1 * r2))) ts unp.

(** src/sz_compress_3d.cpp:126-193 and 196-236 sz_compress_2d_with_eb: one bound per value, every block uses Lorenzo
    (lines 157-181), capacity 65536, no mean, room for every value in the verbatim array. *)
Definition encode_2d_eb (r1 r2 bs : Z) (precisions : list D) (data : list T) : option bcode :=
  enc_acts (cfg2 r2 65536 32768 true None) (aget precisions) [] data
           (acts2_enc r1 r2 bs) (repeat None (Z.to_nat (num_blocks r1 bs * num_blocks r2 bs)))
           (repeat (t0 A) (Z.to_nat ((bs + 1) * (r2 + 1)))) [].

(** src/sz_compress_3d.cpp:196-236 sz_compress_2d_with_eb. *)
Definition compress_2d_eb ord ub (r1 r2 bs : Z) (indep : bool) (precisions : list D)
           (pad : list Z) (data : list T) (junk : list Z) : option (list Z * nat) :=
  check* (1 <=? r1) && (1 <=? r2) && (1 <=? bs) in
  let* c := encode_2d_eb r1 r2 bs precisions data in
  check* (Z.of_nat (length junk) =? est_size (r1 * r2)) in
  write_pieces ord ub (block_pieces bs None indep (cfg2 r2 65536 32768 true None) pad c) junk 0.

(** src/sz_decompress_3d.cpp:124-155 sz_decompress_2d_with_eb (skips sizeof(T) per verbatim value). *)
Definition decompress_2d_eb (r1 r2 : Z) (precisions : list D) (s : list Z) : option (list (option T)) :=
  let* (bs, s1) := read_s32 s in
  check* (1 <=? r1) && (1 <=? r2) && (1 <=? bs) in
  let* (_, s3) := take_bytes 1 s1 in
  let* (radius, s4) := read_s32 s3 in
  let* (mean, s5) := read_mean s4 in
  let* (ind, ts, unp, coefs) :=
    read_blocks (tsize_of A) 3 (Z.to_nat (num_blocks r1 bs * num_blocks r2 bs)) (Z.to_nat (r1 * r2))
                (coef_precisions 3 bs (dtenth O)) s5 in
  dec_acts (cfg2 r2 (2 * radius) radius true mean) (aget precisions) (acts2_dec r1 r2 bs) ind coefs
           (repeat (t0 A) (Z.to_nat ((bs + 1) * (r2 + 1)))) (repeat None (Z.to_nat (r1 * r2))) ts unp.

(** src/sz_compress_3d.cpp:248-315 (block independent), 319-392 (border) and 395-436 sz_compress_3d; [capacity] and
    [mean] are what optimize_quant_invl_3d returned. *)
Definition cfg3 (indep : bool) (d2 d3 bs : Z) (capacity radius : Z) (mean : option T) : cfg :=
  {| g_lor := if indep then lorenzo_predict3 ((bs + 1) * (bs + 1)) (bs + 1)
              else lorenzo_predict3 ((d2 + 1) * (d3 + 1)) (d3 + 1);
     g_wide := negb indep; g_capacity := capacity; g_radius := radius; g_mean := mean; g_zero := false |}.

(** src/sz_compress_3d.cpp:410-411: the traversal chosen by block_independant. *)
Definition acts3 (indep : bool) (d1 d2 d3 bs : Z) : list act :=
  if indep then acts3_indep d1 d2 d3 bs else acts3_border d1 d2 d3 bs.

(** src/sz_compress_3d.cpp:268-269,340-341: the prediction buffer, cleared. *)
Definition buffer3 (indep : bool) (d2 d3 bs : Z) : list T :=
  repeat (t0 A) (Z.to_nat (if indep then (bs + 1) * (bs + 1) * (bs + 1) else (bs + 1) * (d2 + 1) * (d3 + 1))).

(** src/sz_compress_3d.cpp:248-315, 319-392, chosen at 410-411. *)
Definition encode_3d (r1 r2 r3 bs : Z) (indep : bool) (precision : D) (capacity : Z) (mean : option T)
           (plan : list (option (list (F O)))) (data : list T) : option bcode :=
  enc_acts (cfg3 indep r2 r3 bs capacity (Z.shiftr capacity 1) mean) (fun _ => Some precision)
           (coef_precisions 4 bs precision) data (acts3 indep r1 r2 r3 bs) plan (buffer3 indep r2 r3 bs)
           (repeat (fofZ O 0) 4).

(** src/sz_compress_3d.cpp:395-436 sz_compress_3d; capacity, mean and decisions are arguments here (see Plan.v, Sample3D.v). *)
Definition compress_3d ord ub (r1 r2 r3 bs : Z) (indep : bool) (precision : D) (capacity : Z) (mean : option T)
           (plan : list (option (list (F O)))) (pad : list Z) (data : list T) (junk : list Z) : option (list Z * nat) :=
  check* (1 <=? r1) && (1 <=? r2) && (1 <=? r3) && (1 <=? bs) in
  let* c := encode_3d r1 r2 r3 bs indep precision capacity mean plan data in
  check* (Z.of_nat (length (b_unp c)) * Z.of_nat (tsize_of A) <=? unp_room (r1 * r2 * r3)) in
  check* (Z.of_nat (length junk) =? est_size (r1 * r2 * r3)) in
  write_pieces ord ub
    (block_pieces bs (Some precision) indep (cfg3 indep r2 r3 bs capacity (Z.shiftr capacity 1) mean) pad c) junk 0.

(** src/sz_decompress_3d.cpp:254-287 sz_decompress_3d. *)
Definition decompress_3d (r1 r2 r3 : Z) (s : list Z) : option (list (option T)) :=
  let* (bs, s1) := read_s32 s in
  check* (1 <=? r1) && (1 <=? r2) && (1 <=? r3) && (1 <=? bs) in
  let* (pb, s2) := take_bytes 8 s1 in
  let precision := ddes A pb in
  let* (ib, s3) := take_bytes 1 s2 in
  let indep := negb (match ib with [0] => true | _ => false end) in
  let* (radius, s4) := read_s32 s3 in
  let* (mean, s5) := read_mean s4 in
  let* (ind, ts, unp, coefs) :=
    read_blocks (fsize_of O) 4 (Z.to_nat (num_blocks r1 bs * num_blocks r2 bs * num_blocks r3 bs))
                (Z.to_nat (r1 * r2 * r3)) (coef_precisions 4 bs precision) s5 in
  dec_acts (cfg3 indep r2 r3 bs (2 * radius) radius mean) (fun _ => Some precision) (acts3 indep r1 r2 r3 bs) ind coefs
           (buffer3 indep r2 r3 bs) (repeat None (Z.to_nat (r1 * r2 * r3))) ts unp.
End Codec.
