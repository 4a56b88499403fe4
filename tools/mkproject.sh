#!/bin/sh
# lists every theory in _CoqProject (flags line unchanged)
cd /verif/rocq && { echo "-Q theories Verif"; ls theories/*.v; } > _CoqProject
