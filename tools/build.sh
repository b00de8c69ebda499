#!/bin/sh
cd /verif/rocq && { echo "-Q theories Verif"; for f in $(cd theories; ls *.v); do echo theories/$f; done; } > _CoqProject && coq_makefile -f _CoqProject -o Makefile && timeout 2400 make -j4 2>&1 | grep -v '^Closed under\|^COQC\|^COQDEP' 
python3 /verif/tools/manifest.py
