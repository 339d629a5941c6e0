(** Byte-level string functions: base64 (urlsafe), hex fingerprints, storage key formats. *)
From Verif Require Export Base.
From Coq Require Import Ascii.
Open Scope string_scope.

(* ------------------------------------------------------------------------------------------------ *)
(** * base64.urlsafe_b64encode / urlsafe_b64decode (Python standard library, used at storage.py:301, 341 and
      session_manager.py:409, 614, 1162, 1468, 1827) *)

(** RFC 4648 section 5 alphabet. *)
Definition b64_code (n : N) : N :=
  (if n <? 26 then n + 65 else if n <? 52 then n + 71 else if n <? 62 then n - 4
   else if n =? 62 then 45 else 95)%N.
Definition b64_char (n : N) : ascii := ascii_of_N (b64_code n).
(** Values of characters. urlsafe_b64decode translates - and _ to + and /, so both pairs are accepted. *)
Definition b64_val (c : ascii) : option N :=
  let k := N_of_ascii c in
  (if (65 <=? k) && (k <=? 90) then Some (k - 65)
   else if (97 <=? k) && (k <=? 122) then Some (k - 71)
   else if (48 <=? k) && (k <=? 57) then Some (k + 4)
   else if (k =? 45) || (k =? 43) then Some 62 else if (k =? 95) || (k =? 47) then Some 63 else None)%N.

Fixpoint b64enc (s : bytes) : string :=
  match s with
  | EmptyString => ""
  | String a EmptyString =>
      let x := N_of_ascii a in
      String (b64_char (x / 4)) (String (b64_char ((x mod 4) * 16)) "==")
  | String a (String b EmptyString) =>
      let x := N_of_ascii a in let y := N_of_ascii b in
      String (b64_char (x / 4)) (String (b64_char ((x mod 4) * 16 + y / 16))
        (String (b64_char ((y mod 16) * 4)) "="))
  | String a (String b (String c s')) =>
      let x := N_of_ascii a in let y := N_of_ascii b in let z := N_of_ascii c in
      String (b64_char (x / 4)) (String (b64_char ((x mod 4) * 16 + y / 16))
        (String (b64_char ((y mod 16) * 4 + z / 64)) (String (b64_char (z mod 64)) (b64enc s'))))
  end%N.

(** The decoder of CPython (binascii.a2b_base64 without strict mode, Modules/binascii.c): [q] is the position in the
    quad, [left] the bits left over from it, [pads] counts the padding characters. Characters outside the alphabet are
    skipped; a complete padding ends the data; non-zero trailing bits are ignored. *)
Fixpoint b64_quads (s : string) (q : nat) (left : N) (pads : nat) : option bytes :=
  match s with
  | EmptyString => match q with O => Some "" | _ => None end
  | String c s' =>
      if decide (c = "="%char) then
        if decide (2 <= q)%nat then
          if decide (4 <= q + S pads)%nat then Some "" else b64_quads s' q left (S pads)
        else b64_quads s' q left pads
      else
        match b64_val c with
        | None => b64_quads s' q left pads
        | Some v =>
            match q with
            | 0%nat => b64_quads s' 1 v 0
            | 1%nat => r ← b64_quads s' 2 (v mod 16) 0; Some (String (ascii_of_N (left * 4 + v / 16)) r)
            | 2%nat => r ← b64_quads s' 3 (v mod 4) 0; Some (String (ascii_of_N (left * 16 + v / 4)) r)
            | _ => r ← b64_quads s' 0 0 0; Some (String (ascii_of_N (left * 64 + v)) r)
            end
        end
  end%N.
(** value.encode("ASCII") *)
Fixpoint ascii_only (s : string) : bool :=
  match s with EmptyString => true | String c s' => (N_of_ascii c <? 128)%N && ascii_only s' end.
(** Decoder. [None] stands for binascii.Error / UnicodeEncodeError. *)
Definition b64dec (s : string) : option bytes := if ascii_only s then b64_quads s 0 0 0 else None.

(* ------------------------------------------------------------------------------------------------ *)
(** * bytes.hex() and the fingerprint grouping (session_manager.py:1525-1528) *)

Definition hex_digit (n : N) : ascii := ascii_of_N (if n <? 10 then n + 48 else n + 87)%N.
Fixpoint hex (s : bytes) : string :=
  match s with
  | EmptyString => ""
  | String a s' => String (hex_digit (N_of_ascii a / 16)) (String (hex_digit (N_of_ascii a mod 16)) (hex s'))
  end.

(** [ s[i:i + g] for i in range(0, len(s), g) ], session_manager.py:1528 *)
Definition groups (g : nat) (s : string) : list string :=
  map (fun i => substring (i * g) g s) (seq 0 ((String.length s + (g - 1)) / g)).

(* ------------------------------------------------------------------------------------------------ *)
(** * Storage key formats *)

(** str(device_id) inside the f-strings: decimal, with "-" for negative numbers. *)
Definition show_dev (d : Z) : string := pretty d.

(** "/ikp/is_seed", "/ikp/key": identity_key_pair.py:68-69, 81-82 *)
Definition k_ikp_seed : string := "/ikp/is_seed".
Definition k_ikp_key : string := "/ikp/key".
(** "/own_device_id": session_manager.py:354, 416 *)
Definition k_own : string := "/own_device_id".
(** f"/devices/{bare_jid}/list": session_manager.py:402, 589, 609, 1024, 1094, 1399 *)
Definition k_list (j : string) : string := "/devices/" +:+ j +:+ "/list".
(** f"/devices/{bare_jid}/{device_id}/...": session_manager.py:381-396, 442-449, 542-547, 603-606,
    1042, 1049-1051, 1056-1089, 1330, 1408-1479 *)
Definition k_dev (j : string) (d : Z) (field : string) : string :=
  "/devices/" +:+ j +:+ "/" +:+ show_dev d +:+ "/" +:+ field.
Definition k_ns (j : string) (d : Z) : string := k_dev j d "namespaces".
Definition k_active (j : string) (d : Z) : string := k_dev j d "active".
Definition k_label (j : string) (d : Z) : string := k_dev j d "label".
Definition k_ik (j : string) (d : Z) : string := k_dev j d "identity_key".
(** f"/trust/{bare_jid}/{urlsafe_b64encode(identity_key)}": session_manager.py:411, 614, 1162, 1468, 1827 *)
Definition k_trust (j : string) (ik : bytes) : string := "/trust/" +:+ j +:+ "/" +:+ b64enc ik.
(** f"/queue/{namespace}" and f"/queue/{namespace}/{bare_jid}": session_manager.py:1585-1600, 2234-2246 *)
Definition k_queue (n : string) : string := "/queue/" +:+ n.
Definition k_queue_jid (n j : string) : string := "/queue/" +:+ n +:+ "/" +:+ j.
