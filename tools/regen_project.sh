#!/bin/sh
# list every theory in _CoqProject
cd /verif/rocq && { echo "-Q theories Verif"; echo; find theories -name '*.v' | sort; } > _CoqProject
