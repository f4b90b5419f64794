#!/bin/bash
# regenerate _CoqProject from the ordered list tools/files.txt
cd /verif/rocq
{ echo "-Q theories Verif"; sed 's/^/theories\//; s/$/.v/' ../tools/files.txt; } > _CoqProject
