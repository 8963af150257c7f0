(** * Portable: the compression functions of portable.rs. *)
From Verif Require Import Base Consts.
Local Open Scope N_scope.

(** A word of the working vector [v] or of the message [m]. *)
Definition wget (v : list u32) (i : nat) : u32 := get (uzero 32) v i.

(** portable.rs:11-21 [g].  The array [v] is passed in and returned. *)
Definition g (v : list u32) (a b c d : nat) (x y : u32) : list u32 :=
  let v := upd v a (wrapping_add (wrapping_add (wget v a) (wget v b)) x) in
  let v := upd v d (rotate_right (uxor (wget v d) (wget v a)) 16) in
  let v := upd v c (wrapping_add (wget v c) (wget v d)) in
  let v := upd v b (rotate_right (uxor (wget v b) (wget v c)) 12) in
  let v := upd v a (wrapping_add (wrapping_add (wget v a) (wget v b)) y) in
  let v := upd v d (rotate_right (uxor (wget v d) (wget v a)) 8) in
  let v := upd v c (wrapping_add (wget v c) (wget v d)) in
  let v := upd v b (rotate_right (uxor (wget v b) (wget v c)) 7) in
  v.

(** portable.rs:23-39 [round]. *)
Definition round (r : nat) (m : list u32) (v : list u32) : list u32 :=
  let s := sigma r in
  let v := g v 0 4 8 12 (wget m (s 0%nat)) (wget m (s 1%nat)) in
  let v := g v 1 5 9 13 (wget m (s 2%nat)) (wget m (s 3%nat)) in
  let v := g v 2 6 10 14 (wget m (s 4%nat)) (wget m (s 5%nat)) in
  let v := g v 3 7 11 15 (wget m (s 6%nat)) (wget m (s 7%nat)) in
  let v := g v 0 5 10 15 (wget m (s 8%nat)) (wget m (s 9%nat)) in
  let v := g v 1 6 11 12 (wget m (s 10%nat)) (wget m (s 11%nat)) in
  let v := g v 2 7 8 13 (wget m (s 12%nat)) (wget m (s 13%nat)) in
  let v := g v 3 4 9 14 (wget m (s 14%nat)) (wget m (s 15%nat)) in
  v.

(** [LittleEndian::read_u32] of the four bytes at offset [off]
    ([array_refs!(msg, 4, 4, ...)] cuts the block at multiples of 4). *)
Definition read_u32 (bs : list byte) (off : nat) : u32 :=
  match sub bs off 4 with
  | [b0; b1; b2; b3] => u32_of_bytes b0 b1 b2 b3
  | _ => uzero 32 (* impossible: the block has 64 bytes *)
  end.

(** portable.rs:45-106 [compress].  [h] is passed in and returned. *)
Definition compress (h : StateWords) (msg : Block) (count : u64) (lastblock lastnode : u32)
  : StateWords :=
  let v := [o0 h; o1 h; o2 h; o3 h; o4 h; o5 h; o6 h; o7 h;
            o0 IV; o1 IV; o2 IV; o3 IV;
            uxor (o4 IV) (cast 32 count);
            uxor (o5 IV) (cast 32 (ushr count 32));
            uxor (o6 IV) lastblock;
            uxor (o7 IV) lastnode] in
  let m := [read_u32 msg 0; read_u32 msg 4; read_u32 msg 8; read_u32 msg 12;
            read_u32 msg 16; read_u32 msg 20; read_u32 msg 24; read_u32 msg 28;
            read_u32 msg 32; read_u32 msg 36; read_u32 msg 40; read_u32 msg 44;
            read_u32 msg 48; read_u32 msg 52; read_u32 msg 56; read_u32 msg 60] in
  let v := round 0 m v in
  let v := round 1 m v in
  let v := round 2 m v in
  let v := round 3 m v in
  let v := round 4 m v in
  let v := round 5 m v in
  let v := round 6 m v in
  let v := round 7 m v in
  let v := round 8 m v in
  let v := round 9 m v in
  Oct (uxor (o0 h) (uxor (wget v 0) (wget v 8)))
      (uxor (o1 h) (uxor (wget v 1) (wget v 9)))
      (uxor (o2 h) (uxor (wget v 2) (wget v 10)))
      (uxor (o3 h) (uxor (wget v 3) (wget v 11)))
      (uxor (o4 h) (uxor (wget v 4) (wget v 12)))
      (uxor (o5 h) (uxor (wget v 5) (wget v 13)))
      (uxor (o6 h) (uxor (wget v 6) (wget v 14)))
      (uxor (o7 h) (uxor (wget v 7) (wget v 15))).

(** portable.rs:108-158 [compress8].  The forty arguments are grouped in five
    8-tuples; the eight updated states are returned. *)
Definition compress8 (h : oct StateWords) (msg : oct Block) (count : oct u64)
    (lastblock lastnode : oct u32) : oct StateWords :=
  Oct (compress (o0 h) (o0 msg) (o0 count) (o0 lastblock) (o0 lastnode))
      (compress (o1 h) (o1 msg) (o1 count) (o1 lastblock) (o1 lastnode))
      (compress (o2 h) (o2 msg) (o2 count) (o2 lastblock) (o2 lastnode))
      (compress (o3 h) (o3 msg) (o3 count) (o3 lastblock) (o3 lastnode))
      (compress (o4 h) (o4 msg) (o4 count) (o4 lastblock) (o4 lastnode))
      (compress (o5 h) (o5 msg) (o5 count) (o5 lastblock) (o5 lastnode))
      (compress (o6 h) (o6 msg) (o6 count) (o6 lastblock) (o6 lastnode))
      (compress (o7 h) (o7 msg) (o7 count) (o7 lastblock) (o7 lastnode)).

(** portable.rs:198-201 [vectorize_words8]: a no-op. *)
Definition vectorize_words8 (words : oct AlignedWords8) : oct AlignedWords8 := words.

(** [count_low[i] as u64 + ((count_high[i] as u64) << 32)] (portable.rs:223 etc.).
    The sum of a number below 2^32 and a multiple of 2^32 below 2^64 cannot overflow,
    so the plain [+] is modelled by the wrapping one. *)
Definition join_count (lo hi : u32) : u64 :=
  wrapping_add (cast 64 lo) (ushl (cast 64 hi) 32).

(** portable.rs:203-276 [compress8_vectorized]. *)
Definition compress8_vectorized (w : oct AlignedWords8) (blk : oct Block)
    (count_low count_high lastblock lastnode : AlignedWords8) : oct AlignedWords8 :=
  Oct (compress (o0 w) (o0 blk) (join_count (o0 count_low) (o0 count_high)) (o0 lastblock) (o0 lastnode))
      (compress (o1 w) (o1 blk) (join_count (o1 count_low) (o1 count_high)) (o1 lastblock) (o1 lastnode))
      (compress (o2 w) (o2 blk) (join_count (o2 count_low) (o2 count_high)) (o2 lastblock) (o2 lastnode))
      (compress (o3 w) (o3 blk) (join_count (o3 count_low) (o3 count_high)) (o3 lastblock) (o3 lastnode))
      (compress (o4 w) (o4 blk) (join_count (o4 count_low) (o4 count_high)) (o4 lastblock) (o4 lastnode))
      (compress (o5 w) (o5 blk) (join_count (o5 count_low) (o5 count_high)) (o5 lastblock) (o5 lastnode))
      (compress (o6 w) (o6 blk) (join_count (o6 count_low) (o6 count_high)) (o6 lastblock) (o6 lastnode))
      (compress (o7 w) (o7 blk) (join_count (o7 count_low) (o7 count_high)) (o7 lastblock) (o7 lastnode)).
