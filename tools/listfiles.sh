#!/bin/sh
# Rewrites _CoqProject to list every theory file.
cd /verif/rocq && { echo "-Q theories Verif"; ls theories/*.v; } > _CoqProject
