#!/bin/bash
# regenerate _CoqProject from the files in theories/
cd /verif/rocq && { echo "-Q theories Verif"; ls theories/*.v; } > _CoqProject
