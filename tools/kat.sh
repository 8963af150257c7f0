#!/bin/bash
# Runs every BLAKE2s and BLAKE2sp case of /repo/tests/blake2-kat.json through the
# extracted specification (Spec.v).  A test of the specification, not part of any proof.
# Usage: tools/kat.sh [scratch directory]; needs a built rocq/ and ocamlfind with zarith.
set -e
here=$(cd "$(dirname "$0")/.." && pwd)
dir=${1:-$(mktemp -d)}
cd "$dir"
cat > Kat.v <<'E'
From Verif Require Import Base.
From Verif Require Spec.
From Coq Require Import Extraction ExtrOcamlBasic ExtrOcamlNatInt ExtrOcamlZBigInt.
Extract Constant N.land => "Z.logand".
Extract Constant N.lor => "Z.logor".
Extract Constant N.lxor => "Z.logxor".
Extract Constant N.shiftr => "(fun a n -> Z.shift_right a (Z.to_int n))".
Extract Constant N.shiftl => "(fun a n -> Z.shift_left a (Z.to_int n))".
Extract Constant N.ones => "(fun n -> Z.pred (Z.shift_left Z.one (Z.to_int n)))".
Extract Constant N.of_nat => "Z.of_int".
Extract Constant N.to_nat => "Z.to_int".
Definition bytes (l : list N) : list byte := map byte_of_N l.
Definition numbers (l : list byte) : list N := map Byte.to_N l.
Definition s (k m : list N) : list N :=
  numbers (Spec.hex (Spec.blake2s (Spec.mk_params 32 (bytes k) 1 1 0 0 0 0 [] []) false (bytes m))).
Definition sp (k m : list N) : list N := numbers (Spec.hex (Spec.blake2sp 32 (bytes k) (bytes m))).
Extraction "kat.ml" s sp.
E
coqc -Q "$here/rocq/theories" Verif Kat.v > /dev/null
python3 - > cases.txt <<'E'
import json
for x in json.load(open('/repo/tests/blake2-kat.json')):
    if x['hash'] in ('blake2s', 'blake2sp'): print(x['hash'], 'k' + x['key'], 'm' + x['in'], x['out'])
E
cat > drv.ml <<'E'
let bytes h = List.init ((String.length h - 1) / 2) (fun i -> Z.of_int (int_of_string ("0x" ^ String.sub h (2 * i + 1) 2)))
let text l = String.concat "" (List.map (fun z -> String.make 1 (Char.chr (Z.to_int z))) l)
let () =
  let ok = ref 0 and bad = ref 0 in
  (try while true do
    match String.split_on_char ' ' (input_line stdin) with
    | [h; k; m; out] ->
        let f = if h = "blake2s" then Kat.s else Kat.sp in
        if text (f (bytes k) (bytes m)) = out then incr ok else incr bad
    | _ -> failwith "case"
  done with End_of_file -> ());
  Printf.printf "%d pass, %d fail\n" !ok !bad
E
ocamlfind ocamlopt -w -a -package zarith -linkpkg kat.mli kat.ml drv.ml -o kat
./kat < cases.txt
