#!/usr/bin/env python3
"""Generate rocq/theories/Dict*.v from /repo/bip39/src/dicts.

Each file of the repository is a Rust array literal of 2048 string literals.
The words are copied byte for byte, separated by '|'."""
import re, sys, os
repo = sys.argv[1] if len(sys.argv) > 1 else '/repo'
out = os.path.join(os.path.dirname(__file__), '..', 'rocq', 'theories')
langs = [('English', 'english', 'ENGLISH', '931-932'),
         ('French', 'french', 'FRENCH', '937-938'),
         ('Japanese', 'japanese', 'JAPANESE', '943-944'),
         ('Korean', 'korean', 'KOREAN', '949-950'),
         ('ChineseSimplified', 'chinese_simplified', 'CHINESE_SIMPLIFIED', '955-958'),
         ('ChineseTraditional', 'chinese_traditional', 'CHINESE_TRADITIONAL', '962-965'),
         ('Italian', 'italian', 'ITALIAN', '970-971'),
         ('Spanish', 'spanish', 'SPANISH', '976-977')]
for name, file, const, lines in langs:
    txt = open(f'{repo}/bip39/src/dicts/bip39_{file}.txt', encoding='utf-8-sig').read()
    words = re.findall(r'"([^"]*)"', txt)
    assert len(words) == 2048 and not any('\\' in w or '|' in w for w in words)
    rest = re.sub(r'"[^"]*"', '', txt)
    assert set(rest) <= set('[], \n\r\t'), set(rest)
    chunks = ['|'.join(words[i:i + 256]) for i in range(0, 2048, 256)]
    with open(f'{out}/Dict{name}.v', 'w', encoding='utf-8') as f:
        f.write(f'''(** Generated by tools/gen_dicts.py from bip39/src/dicts/bip39_{file}.txt
    ([dictionary::{const}], bip39/src/bip39.rs:{lines}).  Words in
    file order, separated by '|' (in eight literals
    of 256 words, joined by '|'). *)
From Coq Require Import Strings.String.
From Verif Require Import Base.

''')
        for i, c in enumerate(chunks):
            f.write(f'''Definition {file}_{i} : bytes := blit
"{c}".

''')
        j = ' ++ sep ++\n  '.join(f'{file}_{i}' for i in range(8))
        f.write(f'''Definition {file}_text : bytes :=
  let sep := [x7c] in
  {j}.
''')
