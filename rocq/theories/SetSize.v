(** Model of ca_chunker_set_size (cachunker.c:9-89), with the binary64 arithmetic of the discriminator
    computed bit-exactly (round to nearest even, no fused multiply-add) by Coq's [SpecFloat]. *)
From Verif Require Import Base Chunker.
From Coq Require Import Floats.SpecFloat.
Local Open Scope N_scope.

(** The two literals of cachunker.h:20 as the nearest binary64 numbers. *)
Definition slope : spec_float := S754_finite true 5398188203684170 (-75).
Definition icept : spec_float := S754_finite false 6000484229057709 (-52).

(** (double) n for an integer n (conversion rounds to nearest). *)
Definition double_of_N (n : N) : spec_float := binary_normalize 53 1024 (Z.of_N n) 0 false.

(** (size_t) d: truncation; undefined if the truncated value is out of range (C11 6.3.1.4). *)
Definition size_of_double (d : spec_float) : res N :=
  match d with
  | S754_zero _ => Ok 0
  | S754_infinity _ | S754_nan => UB
  | S754_finite s m e =>
    let v := match e with
             | Z0 => Npos m
             | Zpos k => Npos m * 2 ^ Npos k
             | Zneg k => Npos m / 2 ^ Npos k
             end in
    if s then (if v =? 0 then Ok 0 else UB)
    else if v <? two64 then Ok v else UB
  end.

(** cachunker.h:20 CA_CHUNKER_DISCRIMINATOR_FROM_AVG. *)
Definition discriminator_from_avg (avg : N) : res N :=
  let a := double_of_N avg in
  size_of_double (SFdiv 53 1024 a (SFadd 53 1024 (SFmul 53 1024 slope a) icept)).

Section SetSize.
(** lrint(pow(2, (log2(min) + log2(max)) / 2)) converted to size_t (cachunker.c:24): libm's result is not
    modelled, any value is possible. *)
Variable geo : N -> N -> N.

(** cachunker.c:22-43 *)
Definition pick_avg (min avg max : N) : res N :=
  if avg =? 0 then
    let a := if negb (min =? 0) && negb (max =? 0) then geo min max mod two64
             else if negb (min =? 0) then (min * 4) mod two64
             else if negb (max =? 0) then max / 4
             else AVG_DEFAULT in
    let a := if a <? LIMIT_MIN then LIMIT_MIN else a in
    Ok (if LIMIT_MAX <? a then LIMIT_MAX else a)
  else if avg <? LIMIT_MIN then Err ERANGE
  else if LIMIT_MAX <? avg then Err ERANGE
  else Ok avg.

(** cachunker.c:45-54 *)
Definition pick_min (min avg : N) : res N :=
  if min =? 0 then
    let m := avg / 4 in Ok (if m <? LIMIT_MIN then LIMIT_MIN else m)
  else if min <? LIMIT_MIN then Err ERANGE
  else if avg <? min then Err EINVAL
  else Ok min.

(** cachunker.c:56-65 *)
Definition pick_max (avg max : N) : res N :=
  if max =? 0 then
    let m := (avg * 4) mod two64 in Ok (if LIMIT_MAX <? m then LIMIT_MAX else m)
  else if LIMIT_MAX <? max then Err ERANGE
  else if max <? avg then Err EINVAL
  else Ok max.

(** cachunker.c:9-89 ca_chunker_set_size on a chunker whose running state is [s]; the running
    state is not touched, the new configuration is returned. *)
Definition ca_chunker_set_size (s : chunker) (min avg max : N) : res cfg :=
  if negb (ck_wsize s =? 0) then Err EBUSY
  else
    let! avg := pick_avg min avg max in
    let! min := pick_min min avg in
    let! max := pick_max avg max in
    if (LIMIT_MIN <=? min) && (min <=? avg) && (avg <=? max) && (max <=? LIMIT_MAX) then
      let! d := discriminator_from_avg avg in
      let d := if d <? min then min else d in
      let d := if max <? d then max else d in
      Ok (mkCfg min avg max d)
    else Abort.
End SetSize.
