(** * Params: [Params] and [Hash] of lib.rs. *)
From Verif Require Import Base Consts Portable.
Local Open Scope N_scope.

(** lib.rs:163-177 [struct Params] *)
Record Params := mk_Params {
  p_hash_length : u8;
  p_key_length : u8;
  p_key : list byte;        (* [u8; KEYBYTES] *)
  p_salt : list byte;       (* [u8; SALTBYTES] *)
  p_personal : list byte;   (* [u8; PERSONALBYTES] *)
  p_fanout : u8;
  p_max_depth : u8;
  p_max_leaf_length : u32;
  p_node_offset : u64;
  p_node_depth : u8;
  p_inner_hash_length : u8;
  p_last_node : bool
}.

(** lib.rs:285-303 [Params::default] (and lib.rs:180-182 [Params::new]) *)
Definition Params_default : Params := {|
  p_hash_length := of_N 8 (N.of_nat OUTBYTES);
  p_key_length := of_N 8 0;
  p_key := repeat x00 KEYBYTES;
  p_salt := repeat x00 SALTBYTES;
  p_personal := repeat x00 PERSONALBYTES;
  p_fanout := of_N 8 1;
  p_max_depth := of_N 8 1;
  p_max_leaf_length := of_N 32 0;
  p_node_offset := of_N 64 0;
  p_node_depth := of_N 8 0;
  p_inner_hash_length := of_N 8 0;
  p_last_node := false
|}.
Definition Params_new : Params := Params_default.

(** lib.rs:184-204 [Params::make_words].  Precedence as in Rust: [<<] binds tighter
    than [^], and [as] tighter than both. *)
Definition make_words (p : Params) : StateWords :=
  Oct (uxor (uxor (uxor (uxor (o0 IV) (cast 32 (p_hash_length p)))
                        (ushl (cast 32 (p_key_length p)) 8))
                  (ushl (cast 32 (p_fanout p)) 16))
            (ushl (cast 32 (p_max_depth p)) 24))
      (uxor (o1 IV) (p_max_leaf_length p))
      (uxor (o2 IV) (cast 32 (p_node_offset p)))
      (uxor (uxor (uxor (o3 IV) (cast 32 (ushr (p_node_offset p) 32)))
                  (ushl (cast 32 (p_node_depth p)) 16))
            (ushl (cast 32 (p_inner_hash_length p)) 24))
      (uxor (o4 IV) (read_u32 (p_salt p) 0))
      (uxor (o5 IV) (read_u32 (p_salt p) 4))
      (uxor (o6 IV) (read_u32 (p_personal p) 0))
      (uxor (o7 IV) (read_u32 (p_personal p) 4)).

(** Setters.  [&mut self -> &mut Self] becomes [Params -> outcome Params]; a
    [usize] argument is an [N], a slice argument a byte list. *)

(** lib.rs:210-218 [Params::hash_length] *)
Definition set_hash_length (p : Params) (length : N) : outcome Params :=
  assert! ((1 <=? length) && (length <=? N.of_nat OUTBYTES)) ;;
  Ok {| p_hash_length := of_N 8 length; p_key_length := p_key_length p; p_key := p_key p;
        p_salt := p_salt p; p_personal := p_personal p; p_fanout := p_fanout p;
        p_max_depth := p_max_depth p; p_max_leaf_length := p_max_leaf_length p;
        p_node_offset := p_node_offset p; p_node_depth := p_node_depth p;
        p_inner_hash_length := p_inner_hash_length p; p_last_node := p_last_node p |}.

(** lib.rs:220-226 [Params::key] *)
Definition set_key (p : Params) (key : list byte) : outcome Params :=
  assert! (Nat.leb (length key) KEYBYTES) ;;
  key' <- copy_into (repeat x00 KEYBYTES) 0 (length key) key ;;
  Ok {| p_hash_length := p_hash_length p; p_key_length := of_N 8 (N.of_nat (length key));
        p_key := key';
        p_salt := p_salt p; p_personal := p_personal p; p_fanout := p_fanout p;
        p_max_depth := p_max_depth p; p_max_leaf_length := p_max_leaf_length p;
        p_node_offset := p_node_offset p; p_node_depth := p_node_depth p;
        p_inner_hash_length := p_inner_hash_length p; p_last_node := p_last_node p |}.

(** lib.rs:228-233 [Params::salt] *)
Definition set_salt (p : Params) (salt : list byte) : outcome Params :=
  assert! (Nat.leb (length salt) SALTBYTES) ;;
  salt' <- copy_into (repeat x00 SALTBYTES) 0 (length salt) salt ;;
  Ok {| p_hash_length := p_hash_length p; p_key_length := p_key_length p; p_key := p_key p;
        p_salt := salt'; p_personal := p_personal p; p_fanout := p_fanout p;
        p_max_depth := p_max_depth p; p_max_leaf_length := p_max_leaf_length p;
        p_node_offset := p_node_offset p; p_node_depth := p_node_depth p;
        p_inner_hash_length := p_inner_hash_length p; p_last_node := p_last_node p |}.

(** lib.rs:235-244 [Params::personal] *)
Definition set_personal (p : Params) (personal : list byte) : outcome Params :=
  assert! (Nat.leb (length personal) PERSONALBYTES) ;;
  personal' <- copy_into (repeat x00 PERSONALBYTES) 0 (length personal) personal ;;
  Ok {| p_hash_length := p_hash_length p; p_key_length := p_key_length p; p_key := p_key p;
        p_salt := p_salt p; p_personal := personal'; p_fanout := p_fanout p;
        p_max_depth := p_max_depth p; p_max_leaf_length := p_max_leaf_length p;
        p_node_offset := p_node_offset p; p_node_depth := p_node_depth p;
        p_inner_hash_length := p_inner_hash_length p; p_last_node := p_last_node p |}.

(** lib.rs:246-249 [Params::fanout] *)
Definition set_fanout (p : Params) (fanout : u8) : outcome Params :=
  Ok {| p_hash_length := p_hash_length p; p_key_length := p_key_length p; p_key := p_key p;
        p_salt := p_salt p; p_personal := p_personal p; p_fanout := fanout;
        p_max_depth := p_max_depth p; p_max_leaf_length := p_max_leaf_length p;
        p_node_offset := p_node_offset p; p_node_depth := p_node_depth p;
        p_inner_hash_length := p_inner_hash_length p; p_last_node := p_last_node p |}.

(** lib.rs:251-255 [Params::max_depth] *)
Definition set_max_depth (p : Params) (depth : u8) : outcome Params :=
  assert! (negb (val depth =? 0)) ;;
  Ok {| p_hash_length := p_hash_length p; p_key_length := p_key_length p; p_key := p_key p;
        p_salt := p_salt p; p_personal := p_personal p; p_fanout := p_fanout p;
        p_max_depth := depth; p_max_leaf_length := p_max_leaf_length p;
        p_node_offset := p_node_offset p; p_node_depth := p_node_depth p;
        p_inner_hash_length := p_inner_hash_length p; p_last_node := p_last_node p |}.

(** lib.rs:257-260 [Params::max_leaf_length] *)
Definition set_max_leaf_length (p : Params) (length : u32) : outcome Params :=
  Ok {| p_hash_length := p_hash_length p; p_key_length := p_key_length p; p_key := p_key p;
        p_salt := p_salt p; p_personal := p_personal p; p_fanout := p_fanout p;
        p_max_depth := p_max_depth p; p_max_leaf_length := length;
        p_node_offset := p_node_offset p; p_node_depth := p_node_depth p;
        p_inner_hash_length := p_inner_hash_length p; p_last_node := p_last_node p |}.

(** lib.rs:262-266 [Params::node_offset] *)
Definition set_node_offset (p : Params) (offset : u64) : outcome Params :=
  assert! (val offset <? 2 ^ 48) ;;
  Ok {| p_hash_length := p_hash_length p; p_key_length := p_key_length p; p_key := p_key p;
        p_salt := p_salt p; p_personal := p_personal p; p_fanout := p_fanout p;
        p_max_depth := p_max_depth p; p_max_leaf_length := p_max_leaf_length p;
        p_node_offset := offset; p_node_depth := p_node_depth p;
        p_inner_hash_length := p_inner_hash_length p; p_last_node := p_last_node p |}.

(** lib.rs:268-271 [Params::node_depth] *)
Definition set_node_depth (p : Params) (depth : u8) : outcome Params :=
  Ok {| p_hash_length := p_hash_length p; p_key_length := p_key_length p; p_key := p_key p;
        p_salt := p_salt p; p_personal := p_personal p; p_fanout := p_fanout p;
        p_max_depth := p_max_depth p; p_max_leaf_length := p_max_leaf_length p;
        p_node_offset := p_node_offset p; p_node_depth := depth;
        p_inner_hash_length := p_inner_hash_length p; p_last_node := p_last_node p |}.

(** lib.rs:273-277 [Params::inner_hash_length] *)
Definition set_inner_hash_length (p : Params) (length : N) : outcome Params :=
  assert! (length <=? N.of_nat OUTBYTES) ;;
  Ok {| p_hash_length := p_hash_length p; p_key_length := p_key_length p; p_key := p_key p;
        p_salt := p_salt p; p_personal := p_personal p; p_fanout := p_fanout p;
        p_max_depth := p_max_depth p; p_max_leaf_length := p_max_leaf_length p;
        p_node_offset := p_node_offset p; p_node_depth := p_node_depth p;
        p_inner_hash_length := of_N 8 length; p_last_node := p_last_node p |}.

(** lib.rs:279-282 [Params::last_node] *)
Definition set_last_node_param (p : Params) (last_node : bool) : outcome Params :=
  Ok {| p_hash_length := p_hash_length p; p_key_length := p_key_length p; p_key := p_key p;
        p_salt := p_salt p; p_personal := p_personal p; p_fanout := p_fanout p;
        p_max_depth := p_max_depth p; p_max_leaf_length := p_max_leaf_length p;
        p_node_offset := p_node_offset p; p_node_depth := p_node_depth p;
        p_inner_hash_length := p_inner_hash_length p; p_last_node := last_node |}.

(** A setter call, and a chain of setter calls on [Params::new()]. *)
Inductive setter :=
| SHashLength (length : N)
| SKey (key : list byte)
| SSalt (salt : list byte)
| SPersonal (personal : list byte)
| SFanout (fanout : u8)
| SMaxDepth (depth : u8)
| SMaxLeafLength (length : u32)
| SNodeOffset (offset : u64)
| SNodeDepth (depth : u8)
| SInnerHashLength (length : N)
| SLastNode (last_node : bool).

Definition apply_setter (p : Params) (s : setter) : outcome Params :=
  match s with
  | SHashLength n => set_hash_length p n
  | SKey k => set_key p k
  | SSalt k => set_salt p k
  | SPersonal k => set_personal p k
  | SFanout x => set_fanout p x
  | SMaxDepth x => set_max_depth p x
  | SMaxLeafLength x => set_max_leaf_length p x
  | SNodeOffset x => set_node_offset p x
  | SNodeDepth x => set_node_depth p x
  | SInnerHashLength n => set_inner_hash_length p n
  | SLastNode b => set_last_node_param p b
  end.

Fixpoint apply_setters (p : Params) (l : list setter) : outcome Params :=
  match l with
  | [] => Ok p
  | s :: l' => p' <- apply_setter p s ;; apply_setters p' l'
  end.

Definition build (l : list setter) : outcome Params := apply_setters Params_new l.

(** ** Hash *)

(** lib.rs:468-473 [struct Hash] *)
Record Hash := mk_Hash {
  h_bytes : list byte;  (* [u8; OUTBYTES] *)
  h_len : u8
}.

(** lib.rs:423-437 [state_words_to_bytes]: [LittleEndian::write_u32] of each word in order. *)
Definition state_words_to_bytes (w : StateWords) : list byte :=
  u32_to_bytes (o0 w) ++ u32_to_bytes (o1 w) ++ u32_to_bytes (o2 w) ++ u32_to_bytes (o3 w) ++
  u32_to_bytes (o4 w) ++ u32_to_bytes (o5 w) ++ u32_to_bytes (o6 w) ++ u32_to_bytes (o7 w).

(** lib.rs:476-478 [Hash::as_bytes] (also lib.rs:511-515 [AsRef]) *)
Definition as_bytes (x : Hash) : outcome (list byte) :=
  slice_to (h_bytes x) (N.to_nat (val (h_len x))).

(** [arrayvec::ArrayString<[u8; 64]>::push] of an ASCII character: panics when full. *)
Definition HEX_CAP : nat := 2 * OUTBYTES.
Definition push_char (s : list byte) (ch : byte) : outcome (list byte) :=
  if Nat.ltb (length s) HEX_CAP then Ok (s ++ [ch]) else Panic.

(** lib.rs:487: [b"0123456789abcdef"] *)
Definition hex_table : list byte :=
  [x30; x31; x32; x33; x34; x35; x36; x37; x38; x39; x61; x62; x63; x64; x65; x66].

(** lib.rs:485-493 [bytes_to_hex] *)
Fixpoint hex_loop (s : list byte) (bytes : list byte) : outcome (list byte) :=
  match bytes with
  | [] => Ok s
  | b :: rest =>
      s <- push_char s (nth (N.to_nat (N.shiftr (Byte.to_N b) 4)) hex_table x00) ;;
      s <- push_char s (nth (N.to_nat (N.land (Byte.to_N b) 15)) hex_table x00) ;;
      hex_loop s rest
  end.
Definition bytes_to_hex (bytes : list byte) : outcome (list byte) := hex_loop [] bytes.

(** lib.rs:480-482 [Hash::to_hex] *)
Definition to_hex (x : Hash) : outcome (list byte) :=
  bs <- as_bytes x ;; bytes_to_hex bs.

(** [constant_time_eq::constant_time_eq] (external crate, version 0.1): false on
    different lengths, else the OR of all byte XORs is zero. *)
Fixpoint ct_ne (tmp : N) (a b : list byte) : N :=
  match a, b with
  | x :: a', y :: b' => ct_ne (N.lor tmp (N.lxor (Byte.to_N x) (Byte.to_N y))) a' b'
  | _, _ => tmp
  end.
Definition constant_time_eq (a b : list byte) : bool :=
  if Nat.eqb (length a) (length b) then ct_ne 0 a b =? 0 else false.

(** lib.rs:496-500 [PartialEq for Hash] *)
Definition hash_eq (x y : Hash) : outcome bool :=
  a <- as_bytes x ;; b <- as_bytes y ;; Ok (constant_time_eq a b).
(** lib.rs:503-507 [PartialEq<[u8]> for Hash] *)
Definition hash_eq_slice (x : Hash) (other : list byte) : outcome bool :=
  a <- as_bytes x ;; Ok (constant_time_eq a other).
