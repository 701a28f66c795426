*.vo
*.vok
*.vos
*.glob
.*.aux
*.cache
rocq/Makefile
rocq/Makefile.conf
rocq/.Makefile.d
__pycache__/
