(** Model of roc_packet/ntp.cpp (NTP <-> Unix conversion), roc_rtcp/ntp.cpp
    (clamping and extending compact timestamps) and the NtpTimestamp32 /
    NtpTimestamp64 wire fields of roc_rtcp/headers.h. *)
From Verif Require Import Base.
Open Scope res_scope.

(** roc_core/time.h: Second, in nanoseconds. *)
Definition second : Z := 1000000000.

(** packet/ntp.cpp:21 *)
Definition unix_epoch : Z := (70 * 365 + 17) * (24 * 3600).
(** packet/ntp.cpp:26-27 *)
Definition era1 : Z := (66 * 365 + 16 + 37) * (24 * 3600) + 6 * 3600 + 28 * 60 + 16.

(** packet/ntp.cpp:29-31 *)
Definition bits_pack (hi lo : Z) : Z := Z.lor (Z.shiftl hi 32) lo.
(** packet/ntp.cpp:33-36 *)
Definition bits_unpack (v : Z) : Z * Z :=
  (u32 (Z.shiftr (Z.land v 0xffffffff00000000) 32), u32 (Z.land v 0xffffffff)).

(** packet/ntp.cpp:71-79; [ns_delta] is an int64_t. *)
Definition nanoseconds_2_ntp (d : Z) : res Z :=
  if d <? 0 then Panic
  else
    let s := d / second in
    let nans := d - s * second in
    let frac := Z.shiftl nans 32 / second in
    Ok (bits_pack (u32 s) (u32 frac)).

(** packet/ntp.cpp:81-90 *)
Definition ntp_2_nanoseconds (v : Z) : Z :=
  let '(hi, lo) := bits_unpack v in
  hi * second + Z.shiftr (lo * second) 32.

(** packet/ntp.cpp:40-52. The additions cannot overflow int64_t: the first is
    reached only below [era1] seconds, the second subtracts. *)
Definition unix_2_ntp (t : Z) : res Z :=
  if t <? era1 * second then nanoseconds_2_ntp (t + unix_epoch * second)
  else nanoseconds_2_ntp (t - era1 * second).

(** packet/ntp.cpp:54-69; arithmetic on ntp_timestamp_t is modulo 2^64. *)
Definition ntp_2_unix (v : Z) : Z :=
  if negb (Z.land v 0x8000000000000000 =? 0) then
    let e := u64 (Z.shiftl unix_epoch 32) in
    if v <? e then - ntp_2_nanoseconds (u64 (e - v))
    else ntp_2_nanoseconds (u64 (v - e))
  else ntp_2_nanoseconds (u64 (v + u64 (Z.shiftl era1 32))).

(** rtcp/ntp.cpp:15-21 *)
Definition ntp_clamp_64 (v mx : Z) : Z := if mx <? v then mx else v.

(** rtcp/ntp.cpp:23-35 *)
Definition ntp_clamp_32 (v mx : Z) : Z :=
  let v := u64 (v + 0x8000) in
  let v := Z.land v 0xFFFFFFFFFFFF0000 in
  let v := if Z.land mx 0xFFFFFFFFFFFF0000 <? v then Z.land mx 0xFFFFFFFFFFFF0000 else v in
  Z.land v 0x0000FFFFFFFF0000.

(** rtcp/ntp.cpp:37-64 *)
Definition ntp_extend (base v : Z) : res Z :=
  if negb (Z.land v 0xFFFF00000000FFFF =? 0) then Panic
  else
    let ext := Z.lor (Z.land base 0xFFFF000000000000) v in
    let fwd := Z.lor (Z.land (u64 (base - 0x0001000000000000)) 0xFFFF000000000000) v in
    let bwd := Z.lor (Z.land (u64 (base + 0x0001000000000000)) 0xFFFF000000000000) v in
    let de := Z.abs (s64 (u64 (ext - base))) in
    let df := Z.abs (s64 (u64 (fwd - base))) in
    let db := Z.abs (s64 (u64 (bwd - base))) in
    if (de <=? df) && (de <=? db) then Ok ext
    else if df <=? db then Ok fwd
    else Ok bwd.

(** headers.h:287-307 NtpTimestamp32: stored 32-bit field (host order; the byte
    order conversion is [hton32u]/[ntoh32u], inverse to each other). *)
Definition ntp32_set (t : Z) : Z := u32 (Z.shiftr t 16).
Definition ntp32_get (m : Z) : Z := Z.shiftl m 16.

(** headers.h:253-274 NtpTimestamp64: (high_, low_). *)
Definition ntp64_set (t : Z) : Z * Z := (u32 (Z.shiftr t 32), u32 t).
Definition ntp64_get (m : Z * Z) : Z := Z.lor (Z.shiftl (fst m) 32) (snd m).

(** headers.h:91-97 *)
Definition max_delay : Z := 0x0000FFFFFFFFFFFF.
Definition metric_unavail_32 : Z := 0x0000FFFFFFFF0000.
Definition metric_unavail_64 : Z := 0xFFFFFFFFFFFFFFFF.

(** headers.h:488-490 (same at 1274-1276, 1459-1461): delay setters. *)
Definition set_delay (x : Z) : Z := ntp32_set (ntp_clamp_32 x max_delay).
(** headers.h:1590-1592 (same at 1606, 1622, 1738, 1753): metric setters. *)
Definition set_metric_32 (x : Z) : Z := ntp32_set (ntp_clamp_32 x (metric_unavail_32 - 1)).
(** headers.h:1579-1581 etc. *)
Definition has_metric_32 (m : Z) : bool := negb (ntp32_get m =? metric_unavail_32).
(** headers.h:1637-1639 *)
Definition set_metric_64 (x : Z) : Z * Z := ntp64_set (ntp_clamp_64 x (metric_unavail_64 - 1)).
Definition has_metric_64 (m : Z * Z) : bool := negb (ntp64_get m =? metric_unavail_64).
