#!/bin/sh
# Regenerate rocq/_CoqProject (flags line kept) from the files present.
cd "$(dirname "$0")/../rocq" || exit 1
{ echo "-Q theories Verif"; find theories -name '*.v' | LC_ALL=C sort; } > _CoqProject
coq_makefile -f _CoqProject -o Makefile
