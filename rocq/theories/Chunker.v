(** Model of src/cachunker.c, src/cachunker.h: the content defined chunker. *)
From Verif Require Import Base.
Local Open Scope N_scope.

(** cachunker.h:14 CA_CHUNKER_WINDOW_SIZE; cachunk.h:13-14 CA_CHUNK_SIZE_LIMIT_MAX / _MIN;
    cachunker.h:11 CA_CHUNK_SIZE_AVG_DEFAULT. *)
Definition WINDOW : N := 48.
Definition LIMIT_MAX : N := 134217728.
Definition LIMIT_MIN : N := 1.
Definition AVG_DEFAULT : N := 65536.

(** cachunker.c:91-156 buzhash_table, copied verbatim from the source. *)
Definition buzhash_table : list N := [
  0x458be752; 0xc10748cc; 0xfbbcdbb8; 0x6ded5b68;
  0xb10a82b5; 0x20d75648; 0xdfc5665f; 0xa8428801;
  0x7ebf5191; 0x841135c7; 0x65cc53b3; 0x280a597c;
  0x16f60255; 0xc78cbc3e; 0x294415f5; 0xb938d494;
  0xec85c4e6; 0xb7d33edc; 0xe549b544; 0xfdeda5aa;
  0x882bf287; 0x3116737c; 0x05569956; 0xe8cc1f68;
  0x0806ac5e; 0x22a14443; 0x15297e10; 0x50d090e7;
  0x4ba60f6f; 0xefd9f1a7; 0x5c5c885c; 0x82482f93;
  0x9bfd7c64; 0x0b3e7276; 0xf2688e77; 0x8fad8abc;
  0xb0509568; 0xf1ada29f; 0xa53efdfe; 0xcb2b1d00;
  0xf2a9e986; 0x6463432b; 0x95094051; 0x5a223ad2;
  0x9be8401b; 0x61e579cb; 0x1a556a14; 0x5840fdc2;
  0x9261ddf6; 0xcde002bb; 0x52432bb0; 0xbf17373e;
  0x7b7c222f; 0x2955ed16; 0x9f10ca59; 0xe840c4c9;
  0xccabd806; 0x14543f34; 0x1462417a; 0x0d4a1f9c;
  0x087ed925; 0xd7f8f24c; 0x7338c425; 0xcf86c8f5;
  0xb19165cd; 0x9891c393; 0x325384ac; 0x0308459d;
  0x86141d7e; 0xc922116a; 0xe2ffa6b6; 0x53f52aed;
  0x2cd86197; 0xf5b9f498; 0xbf319c8f; 0xe0411fae;
  0x977eb18c; 0xd8770976; 0x9833466a; 0xc674df7f;
  0x8c297d45; 0x8ca48d26; 0xc49ed8e2; 0x7344f874;
  0x556f79c7; 0x6b25eaed; 0xa03e2b42; 0xf68f66a4;
  0x8e8b09a2; 0xf2e0e62a; 0x0d3a9806; 0x9729e493;
  0x8c72b0fc; 0x160b94f6; 0x450e4d3d; 0x7a320e85;
  0xbef8f0e1; 0x21d73653; 0x4e3d977a; 0x1e7b3929;
  0x1cc6c719; 0xbe478d53; 0x8d752809; 0xe6d8c2c6;
  0x275f0892; 0xc8acc273; 0x4cc21580; 0xecc4a617;
  0xf5f7be70; 0xe795248a; 0x375a2fe9; 0x425570b6;
  0x8898dcf8; 0xdc2d97c4; 0x0106114b; 0x364dc22f;
  0x1e0cad1f; 0xbe63803c; 0x5f69fac2; 0x4d5afa6f;
  0x1bc0dfb5; 0xfb273589; 0x0ea47f7b; 0x3c1c2b50;
  0x21b2a932; 0x6b1223fd; 0x2fe706a8; 0xf9bd6ce2;
  0xa268e64e; 0xe987f486; 0x3eacf563; 0x1ca2018c;
  0x65e18228; 0x2207360a; 0x57cf1715; 0x34c37d2b;
  0x1f8f3cde; 0x93b657cf; 0x31a019fd; 0xe69eb729;
  0x8bca7b9b; 0x4c9d5bed; 0x277ebeaf; 0xe0d8f8ae;
  0xd150821c; 0x31381871; 0xafc3f1b0; 0x927db328;
  0xe95effac; 0x305a47bd; 0x426ba35b; 0x1233af3f;
  0x686a5b83; 0x50e072e5; 0xd9d3bb2a; 0x8befc475;
  0x487f0de6; 0xc88dff89; 0xbd664d5e; 0x971b5d18;
  0x63b14847; 0xd7d3c1ce; 0x7f583cf3; 0x72cbcb09;
  0xc0d0a81c; 0x7fa3429b; 0xe9158a1b; 0x225ea19a;
  0xd8ca9ea3; 0xc763b282; 0xbb0c6341; 0x020b8293;
  0xd4cd299d; 0x58cfa7f8; 0x91b4ee53; 0x37e4d140;
  0x95ec764c; 0x30f76b06; 0x5ee68d24; 0x679c8661;
  0xa41979c2; 0xf2b61284; 0x4fac1475; 0x0adb49f9;
  0x19727a23; 0x15a7e374; 0xc43a18d5; 0x3fb1aa73;
  0x342fc615; 0x924c0793; 0xbee2d7f0; 0x8a279de9;
  0x4aa2d70c; 0xe24dd37f; 0xbe862c0b; 0x177c22c2;
  0x5388e5ee; 0xcd8a7510; 0xf901b4fd; 0xdbc13dbc;
  0x6c0bae5b; 0x64efe8c7; 0x48b02079; 0x80331a49;
  0xca3d8ae6; 0xf3546190; 0xfed7108b; 0xc49b941b;
  0x32baf4a9; 0xeb833a4a; 0x88a3f1a5; 0x3a91ce0a;
  0x3cc27da1; 0x7112e684; 0x4a3096b1; 0x3794574c;
  0xa3c8b6f3; 0x1d213941; 0x6e0a2e00; 0x233479f1;
  0x0f4cd82f; 0x6093edd2; 0x5d7d209e; 0x464fe319;
  0xd4dcac9e; 0x0db845cb; 0xfb5e4bc3; 0xe0256ce1;
  0x09fb4ed1; 0x0914be1e; 0xa5bdb2c3; 0xc6eb57bb;
  0x30320350; 0x3f397e91; 0xa67791bc; 0x86bc0e2c;
  0xefa0a7e2; 0xe9ff7543; 0xe733612c; 0xd185897b;
  0x329e5388; 0x91dd236b; 0x2ecb0d93; 0xf4d82a3d;
  0x35b5c03f; 0xe4e606f0; 0x05b21843; 0x37b45964;
  0x5eff22f4; 0x6027f4cc; 0x77178b3c; 0xae507131;
  0x7bf7cabc; 0xf9c18d66; 0x593ade65; 0xd95ddf11
].

(** Table access buzhash_table[b] for a uint8_t b. *)
Definition tab (b : N) : N := nth (N.to_nat b) buzhash_table 0.

(** util.h:667-674 rol32: uint32_t shifts, hence bits shifted out on the left are dropped. *)
Definition rol32 (x i : N) : N :=
  let i := i mod 32 in
  if i =? 0 then x
  else N.lor (N.shiftl x i mod two32) (N.shiftr x (32 - i)).

(** cachunker.h:24-36 struct CaChunker, split into its configuration ... *)
Record cfg := mkCfg { c_min : N; c_avg : N; c_max : N; c_disc : N }.
(** ... and its running state. [ck_window] has 48 elements. *)
Record chunker := mkChunker { ck_h : N; ck_wsize : N; ck_csize : N; ck_window : list N }.

(** cachunker.h:38-45 CA_CHUNKER_INIT (running part): everything zero. *)
Definition chunker_init : chunker := mkChunker 0 0 0 (repeat 0 48).

(** cachunker.c:158-177 ca_chunker_start: the loop [h ^= rol32(tab[*q], n - i)] for i = 1..n-1, then
    the last byte; [q] is what is left of the window ([n - i] is the number of bytes after the
    current one). n == 0 would read out of bounds. *)
Fixpoint start_loop (h : N) (q : list N) : res N :=
  match q with
  | [] => UB
  | [b] => Ok (N.lxor h (tab b))
  | b :: q' => start_loop (N.lxor h (rol32 (tab b) (len q'))) q'
  end.

(** cachunker.c:164-167, the assertions in ca_chunker_start. *)
Definition cfg_asserts (c : cfg) : bool :=
  (LIMIT_MIN <=? c_min c) && (c_min c <=? c_avg c) && (c_avg c <=? c_max c) && (c_max c <=? LIMIT_MAX).

Definition ca_chunker_start (c : cfg) (h : N) (q : list N) : res N :=
  if cfg_asserts c then start_loop h q else Abort.

(** cachunker.c:179-186 ca_chunker_roll. *)
Definition ca_chunker_roll (h wsize leave enter : N) : N :=
  N.lxor (N.lxor (rol32 h 1) (rol32 (tab leave) wsize)) (tab enter).

(** cachunker.c:188-195 shall_break; the modulo by a zero discriminator is undefined. *)
Definition shall_break (c : cfg) (csize v : N) : res bool :=
  if c_max c <=? csize then Ok true
  else if c_disc c =? 0 then UB
  else Ok (v mod c_disc c =? c_disc c - 1).

(** cachunker.c:197-200 CA_CHUNKER_IS_FIXED_SIZE. *)
Definition is_fixed (c : cfg) : bool := (c_min c =? c_avg c) && (c_max c =? c_avg c).

(** memcpy(window + off, src, |src|) within the window. *)
Definition write_at (w : list N) (off : N) (src : list N) : list N :=
  takeN off w ++ src ++ dropN (off + len src) w.

(** cachunker.c:286-291 label "now": reset the running state, report border [k].
    The stale window contents stay. *)
Definition scan_now (k : N) (w : list N) : res (option N * chunker) :=
  Ok (Some k, mkChunker 0 0 0 w).

(** cachunker.c:269-284 the main loop. *)
Fixpoint scan_loop (c : cfg) (h wsize csize : N) (w : list N) (idx k : N) (q : list N)
  : res (option N * chunker) :=
  match q with
  | [] => Ok (None, mkChunker h wsize csize w)
  | b :: q' =>
    let v := ca_chunker_roll h wsize (nth (N.to_nat idx) w 0) b in
    let csize := csize + 1 in
    let k := k + 1 in
    let! brk := shall_break c csize v in
    if brk then scan_now k w
    else
      let w := write_at w idx [b] in
      let idx := if idx + 1 =? WINDOW then 0 else idx + 1 in
      scan_loop c v wsize csize w idx k q'
  end.

(** cachunker.c:267 and following, entered with a full window. *)
Definition scan_roll (c : cfg) (skip h wsize csize : N) (w : list N) (k : N) (q : list N) :=
  scan_loop c h wsize csize w ((csize - skip) mod WINDOW) k q.

(** cachunker.c:243-284: fill the window, hash it, and go on rolling. [q] is the data not yet
    consumed, [k] the number of bytes consumed. *)
Definition scan_window (c : cfg) (skip : N) (s : chunker) (k : N) (q : list N)
  : res (option N * chunker) :=
  if ck_wsize s <? WINDOW then
    let m := N.min (WINDOW - ck_wsize s) (len q) in
    let w := write_at (ck_window s) (ck_wsize s) (takeN m q) in
    let wsize := ck_wsize s + m in
    let csize := ck_csize s + m in
    if wsize <? WINDOW then Ok (None, mkChunker (ck_h s) wsize csize w)
    else
      let! v := ca_chunker_start c (ck_h s) (takeN wsize w) in
      let k := k + m in
      let! brk := shall_break c csize v in
      if brk then scan_now k w
      else scan_roll c skip v wsize csize w k (dropN m q)
  else scan_roll c skip (ck_h s) (ck_wsize s) (ck_csize s) (ck_window s) k q.

(** cachunker.c:202-292 ca_chunker_scan. [None] stands for the return value (size_t) -1. *)
Definition ca_chunker_scan (c : cfg) (s : chunker) (p : list N) : res (option N * chunker) :=
  if is_fixed c then
    if ck_csize s <? c_avg c then
      let m := N.min (c_avg c - ck_csize s) (len p) in
      let csize := ck_csize s + m in
      if csize <? c_avg c then Ok (None, mkChunker (ck_h s) (ck_wsize s) csize (ck_window s))
      else scan_now m (ck_window s)
    else Abort
  else if WINDOW <? c_min c then
    let skip := c_min c - WINDOW in
    if ck_csize s <? skip then
      let k := skip - ck_csize s in
      if len p <=? k then Ok (None, mkChunker (ck_h s) (ck_wsize s) (ck_csize s + len p) (ck_window s))
      else scan_window c skip (mkChunker (ck_h s) (ck_wsize s) (ck_csize s + k) (ck_window s)) k (dropN k p)
    else scan_window c skip s 0 p
  else scan_window c 0 s 0 p.

(** casync.c:1692-1764 ca_sync_write_chunks, the chunking part: scan the data, append to the buffer or emit
    a chunk made of the buffer and the scanned bytes, then go on behind the border. State: the
    chunker and the buffer. Origins, store and index are handled elsewhere (WriteChunks.v).
    [fuel] bounds the number of borders; each border consumes at least one byte, so that
    [length p + 1] is always enough (proved: the [Abort] of exhausted fuel is unreachable). *)
Record split := mkSplit { sp_ck : chunker; sp_buf : list N }.
Definition split_init : split := mkSplit chunker_init [].

Fixpoint write_chunks (fuel : nat) (c : cfg) (s : split) (p : list N) : res (list (list N) * split) :=
  if len p =? 0 then Ok ([], s)
  else
    match fuel with
    | O => Abort
    | S fuel =>
      let! (k, ck) := ca_chunker_scan c (sp_ck s) p in
      match k with
      | None => Ok ([], mkSplit ck (sp_buf s ++ p))
      | Some k =>
        let! (chunks, s') := write_chunks fuel c (mkSplit ck []) (dropN k p) in
        Ok ((sp_buf s ++ takeN k p) :: chunks, s')
      end
    end.

(** casync.c:1766-1779 ca_sync_write_final_chunk: what is left in the buffer is the final chunk. *)
Definition write_final_chunk (s : split) : list (list N) :=
  if len (sp_buf s) =? 0 then [] else [sp_buf s].

(** A run: the stream arrives in pieces (one ca_sync_write_chunks call each), then ends. *)
Fixpoint write_pieces (c : cfg) (s : split) (ps : list (list N)) : res (list (list N) * split) :=
  match ps with
  | [] => Ok ([], s)
  | p :: ps =>
    let! (l, s) := write_chunks (S (length p)) c s p in
    let! (l', s) := write_pieces c s ps in
    Ok (l ++ l', s)
  end.

Definition chunk_stream (c : cfg) (ps : list (list N)) : res (list (list N)) :=
  let! (l, s) := write_pieces c split_init ps in
  Ok (l ++ write_final_chunk s).
