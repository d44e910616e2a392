#!/usr/bin/env python3
"""Write rocq/theories/TestData.v: the project's test files as hexadecimal strings."""
import os, sys
SRC = sys.argv[1] if len(sys.argv) > 1 else "/repo/testdata"
OUT = os.path.join(os.path.dirname(os.path.abspath(__file__)), "..", "rocq", "theories", "TestData.v")
FILES = ["similarity.bin", "analogy.bin", "similarity.fifu", "quantized.fifu", "quantized_storage.bin",
         "fasttext.bin", "utf8-incomplete.bin", "utf8-incomplete.dims", "utf8-incomplete.txt",
         "similarity.txt", "similarity.nodims"]
with open(OUT, "w") as o:
    o.write('''(** * The project's test files

    Generated by tools/testdata.py from /repo/testdata; used by
    [ConformanceData] only. *)
From Coq Require Import Strings.Byte.
From Verif Require Import Base.
Local Open Scope N_scope.

(** Hexadecimal literals. *)
Inductive hex := Hex (l : list byte).
Definition hex_list (h : hex) : list byte := let 'Hex l := h in l.
Declare Scope hex_scope.
Delimit Scope hex_scope with hex.
String Notation hex Hex hex_list : hex_scope.
Local Open Scope hex_scope.

Definition nibble (b : byte) : N := let n := bN b in if n <? 58 then n - 48 else n - 87.
Fixpoint unhex (l : list byte) : list byte :=
  match l with a :: b :: l' => Nb (nibble a * 16 + nibble b) :: unhex l' | _ => [] end.
Definition file (hs : list hex) : list byte := flat_map (fun h => unhex (hex_list h)) hs.
''')
    for f in FILES:
        n = f.replace(".", "_").replace("-", "_")
        data = open(os.path.join(SRC, f), "rb").read()
        parts = [data[i:i + 512].hex() for i in range(0, len(data), 512)]
        o.write('\n(** /repo/testdata/%s, %d bytes. *)\nDefinition %s : list byte := file [\n  %s].\n'
                % (f, len(data), n, ";\n  ".join('"%s"' % p for p in parts)))
